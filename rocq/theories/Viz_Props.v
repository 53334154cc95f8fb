(** Properties C62-C66, C102-C107: visualization. *)
From Coq Require Import Ascii Permutation.
From Verif Require Import Viz_Proofs.
Open Scope nat_scope.

(** C62: number of triangles and the points they use. *)
Theorem C62_triangles : forall {P} ge (outer inner : list P), outer <> [] -> inner <> [] -> sound_ge (length outer) (length inner) ge ->
  let (pts, tris) := plane_with_hole ge outer inner in
  pts = outer ++ inner /\ length tris = length outer + length inner /\ Forall (tri_ok (length pts)) tris.
Proof.
  intros P ge outer inner O I S. assert (0 < length outer) by (destruct outer; [contradiction|cbn; lia]). assert (0 < length inner) by (destruct inner; [contradiction|cbn; lia]).
  destruct (ring ge _ _ H H0 S) as (A & B & _). cbn [plane_with_hole]. rewrite app_length. auto.
Qed.
Print Assumptions C62_triangles.
(** Every inner edge in one triangle, every outer edge in one triangle (in opposite direction), in the order of the points. *)
Theorem C62_edges : forall ge n_out n_in, 0 < n_out -> 0 < n_in -> sound_ge n_out n_in ge -> let L := pwh_loop ge n_out n_in (n_out + n_in) 0 0 0 in
  map inner_edge (filter (is_inner n_out) L) = map (fun j => (n_out + j, n_out + (j + 1) mod n_in)) (seq 0 n_in) /\
  map outer_edge (filter (fun t => negb (is_inner n_out t)) L) = map (fun j => ((j + 1) mod n_out, j)) (seq 0 n_out).
Proof. intros ge no ni A B C. destruct (ring ge no ni A B C) as (_ & _ & D & E & _). auto. Qed.
Print Assumptions C62_edges.
(** Each triangle starts at the edge where the one before ends, the first one starts where the last one ends. *)
Theorem C62_closed : forall ge n_out n_in d, 0 < n_out -> 0 < n_in -> sound_ge n_out n_in ge -> let L := pwh_loop ge n_out n_in (n_out + n_in) 0 0 0 in
  forall i, i < n_out + n_in -> spoke_second n_out (nth i L d) = spoke_first n_out (nth ((i + 1) mod (n_out + n_in)) L d).
Proof. exact ring_closed. Qed.
Print Assumptions C62_closed.
Theorem C62_exact : forall n_out n_in, 0 < n_out -> 0 < n_in -> sound_ge n_out n_in (ge_exact n_out n_in).
Proof. exact exact_sound. Qed.
Print Assumptions C62_exact.
(* The example of the docstring, and one with different numbers of points *)
Example C62_ex : pwh_loop (ge_exact 4 4) 4 4 8 0 0 0 = [(0,4,5); (1,0,5); (1,5,6); (2,1,6); (2,6,7); (3,2,7); (3,7,4); (0,3,4)].
Proof. reflexivity. Qed.
Example C62_ex2 : pwh_loop (ge_exact 3 2) 3 2 5 0 0 0 = [(0,3,4); (1,0,4); (2,1,4); (2,4,3); (0,2,3)].
Proof. reflexivity. Qed.

(** C63: true if all sets have the same number of points (as everywhere in the code). *)
Theorem C63_equal_sizes_partial : forall {P} (list_xyz : list (list P)) list_triangles s, list_xyz <> [] -> length list_triangles = length list_xyz ->
  Forall (fun x => length x = s) list_xyz -> Forall2 (fun xyz ts => Forall (tri_ok (length xyz)) ts) list_xyz list_triangles ->
  exists tris, combine_disjoint list_xyz list_triangles = Ok (concat list_xyz, tris) /\
    map (corners (concat list_xyz)) tris = concat (map (fun p => map (corners (fst p)) (snd p)) (combine list_xyz list_triangles)).
Proof. intros P. exact combine_ok. Qed.
Print Assumptions C63_equal_sizes_partial.
(** C63, the number that is added to the indices is right for all sets only if all sizes are equal. *)
Theorem C63_offsets_partial : forall c l, map (fun x => x - c) (cumsum_nat 0 (c :: l)) = right_offsets 0 (c :: l) <-> Forall (fun x => x = c) (c :: l).
Proof. intros c l. split; [intros H; apply (offsets_only _ _ _ H); cbn; lia|apply offsets_equal]. Qed.
Print Assumptions C63_offsets_partial.
(** C63, false in general: the triangle of the second set uses a point of the first one, or a point that does not exist. *)
Theorem C63_mixed_refuted : exists (a b : list nat) ta tb pts tris, Forall (tri_ok (length a)) [ta] /\ Forall (tri_ok (length b)) [tb] /\
  combine_disjoint [a; b] [[ta]; [tb]] = Ok (pts, tris) /\ map (corners pts) tris <> [corners a ta; corners b tb].
Proof.
  exists [10; 11; 12; 13], [20; 21; 22], (0, 1, 2), (0, 1, 2). do 2 eexists. split; [repeat constructor|]. split; [repeat constructor|]. split; [reflexivity|]. discriminate.
Qed.
Print Assumptions C63_mixed_refuted.
Theorem C63_missing_point_refuted : exists (a b : list nat) tris, combine_disjoint [a; b] [[(0, 1, 2)]; [(0, 1, 3)]] = Ok (a ++ b, tris) /\
  length a = 3 /\ length b = 4 /\ ~ Forall (tri_ok 7) tris.
Proof.
  exists [10; 11; 12], [20; 21; 22; 23]. eexists. split; [reflexivity|]. split; [reflexivity|]. split; [reflexivity|]. intros F. inversion F as [|? ? _ F2]; subst. inversion F2 as [|? ? F3 _]; subst. cbn in F3. lia.
Qed.
Print Assumptions C63_missing_point_refuted.
Example C63_ex : combine_disjoint [[10; 11; 12]; [20; 21; 22]] [[(0, 1, 2)]; [(2, 1, 0)]] = Ok ([10; 11; 12; 20; 21; 22], [(0, 1, 2); (5, 4, 3)]).
Proof. reflexivity. Qed.

(** C64: integers *)
Theorem C64_integers : forall r g b, (0 <= r <= 255)%Z -> (0 <= g <= 255)%Z -> (0 <= b <= 255)%Z ->
  color_tuple_to_hex [CInt r; CInt g; CInt b] = Ok (String.append "0x" (String.append (two_hex r) (String.append (two_hex g) (two_hex b)))).
Proof. exact color_ints. Qed.
Print Assumptions C64_integers.
(** out of range, neither float nor integer, or mixed: ValueError. *)
Theorem C64_refused : forall c, (exists x, In x c /\ (is_float x && (Rltb (fval x) 0 || Rltb 1 (fval x)) || is_int x && ((ival x <? 0)%Z || (255 <? ival x)%Z) || negb (is_float x || is_int x))%bool = true) ->
  color_tuple_to_hex c = Err ValueError.
Proof. exact color_refused. Qed.
Print Assumptions C64_refused.
Theorem C64_mixed : forall c x y, In x c -> In y c -> is_float x = true -> is_int y = true -> color_tuple_to_hex c = Err ValueError.
Proof. exact color_mixed. Qed.
Print Assumptions C64_mixed.
(** Floats: right if red and green are multiples of 1/255. *)
Theorem C64_floats_partial : forall r g b kr kg kb, (0 <= r <= 1 -> 0 <= g <= 1 -> 0 <= b <= 1 -> r * 255 = IZR kr -> g * 255 = IZR kg -> IZR kb <= b * 255 < IZR kb + 1 ->
  color_tuple_to_hex [CFloat r; CFloat g; CFloat b] = Ok (String.append "0x" (String.append (two_hex kr) (String.append (two_hex kg) (two_hex kb)))))%R.
Proof. exact color_floats. Qed.
Print Assumptions C64_floats_partial.
(** All floats: always six digits. *)
Theorem C64_floats_length : forall r g b, (0 <= r <= 1)%R -> (0 <= g <= 1)%R -> (0 <= b <= 1)%R ->
  exists s, color_tuple_to_hex [CFloat r; CFloat g; CFloat b] = Ok s /\ String.length s = 8.
Proof. exact color_floats_length. Qed.
Print Assumptions C64_floats_length.
(** C64, false: half red without green and blue is written with half green. *)
Theorem C64_floats_refuted : color_tuple_to_hex [CFloat (1 / 2); CFloat 0; CFloat 0] = Ok "0x7f8000"%string /\
  "0x7f8000"%string <> String.append "0x" (String.append (two_hex 127) (String.append (two_hex 0) (two_hex 0))).
Proof. split; [exact color_leak|discriminate]. Qed.
Print Assumptions C64_floats_refuted.
Example C64_ex : color_tuple_to_hex [CInt 255; CInt 0; CInt 16] = Ok "0xff0010"%string /\ color_tuple_to_hex [CInt 0; CInt 0; CInt 1] = Ok "0x000001"%string.
Proof. split; rewrite color_ints by lia; reflexivity. Qed.

(** C65 *)
Theorem C65_lookup : forall {V} (d : displaydict V) k,
  (forall v, dget k (dd_items d) = Some v -> dd_getitem d k = Ok v) /\
  (forall g v, dget k (dd_items d) = None -> dd_geometry d = Some g -> dget k g = Some v -> dd_getitem d k = Ok v) /\
  (dget k (dd_items d) = None -> (forall g, dd_geometry d = Some g -> dget k g = None) -> dd_getitem d k = Err KeyError).
Proof.
  intros V d k. unfold dd_getitem. split; [|split].
  - intros v ->. reflexivity.
  - intros g v -> -> ->. reflexivity.
  - intros -> H. destruct (dd_geometry d) as [g|]; [rewrite (H g eq_refl)|]; reflexivity.
Qed.
Print Assumptions C65_lookup.
Theorem C65_get : forall {V} (d : displaydict V) k dflt, (forall v, dd_getitem d k = Ok v -> dd_get d k dflt = v) /\ (forall e, dd_getitem d k = Err e -> dd_get d k dflt = dflt).
Proof. intros V d k dflt. unfold dd_get. split; intros x ->; reflexivity. Qed.
Print Assumptions C65_get.
Theorem C65_set : forall {V} (d : displaydict V) k v, dd_getitem (dd_setitem d k v) k = Ok v /\ dd_geometry (dd_setitem d k v) = dd_geometry d /\
  (forall k', k' <> k -> dd_getitem (dd_setitem d k v) k' = dd_getitem d k').
Proof.
  intros V d k v. unfold dd_getitem, dd_setitem. cbn [dd_items dd_geometry]. rewrite dget_dset_eq. split; [reflexivity|]. split; [reflexivity|].
  intros k' N. rewrite dget_dset_neq by exact N. reflexivity.
Qed.
Print Assumptions C65_set.
(** [in] does not look at the geometry: a color or a "box-half" in the geometry is not used. *)
Theorem C65_in_own_items : forall {V} (d : displaydict V) k, dd_in d k = true <-> exists v, dget k (dd_items d) = Some v.
Proof. intros V d k. unfold dd_in. apply din_dget. Qed.
Print Assumptions C65_in_own_items.
Example C65_ex : let d := DD [("color", 1)]%string (Some [("shape", 2); ("color", 3)]%string) in
  dd_getitem d "color" = Ok 1 /\ dd_getitem d "shape" = Ok 2 /\ dd_getitem d "x" = Err KeyError /\ dd_get d "x" 7 = 7 /\ dd_in d "shape" = false.
Proof. repeat split. Qed.

(** C66 *)
Theorem C66_first_supported : forall registry shapes s, dispatch registry shapes = Plotted s <->
  exists pre post, shapes = pre ++ s :: post /\ s <> "None"%string /\ In s registry /\ (forall x, In x pre -> x <> "None"%string /\ ~ In x registry).
Proof. exact dispatch_plotted. Qed.
Print Assumptions C66_first_supported.
Theorem C66_none : forall registry shapes, dispatch registry shapes = Hidden <->
  exists pre post, shapes = pre ++ "None"%string :: post /\ (forall x, In x pre -> x <> "None"%string /\ ~ In x registry).
Proof. exact dispatch_hidden. Qed.
Print Assumptions C66_none.
Theorem C66_otherwise : forall registry shapes, dispatch registry shapes = Warned <-> (forall x, In x shapes -> x <> "None"%string /\ ~ In x registry).
Proof. exact dispatch_warned. Qed.
Print Assumptions C66_otherwise.
(** The list of shapes: words between semicolons, without the white space around them. *)
Theorem C66_shapes : forall (words : list (list ascii * list ascii * list ascii)), words <> [] ->
  Forall (fun w => let '(p, x, q) := w in forallb is_space p = true /\ forallb is_space q = true /\ trimmed x /\ ~ In ";"%char (p ++ x ++ q)) words ->
  map (fun l => string_of_list_ascii (strip l)) (csplit ";" [] (join ";" (map (fun w => let '(p, x, q) := w in p ++ x ++ q) words))) =
  map (fun w => let '(p, x, q) := w in string_of_list_ascii x) words.
Proof.
  intros words N F. rewrite split_join.
  - rewrite map_map. apply map_ext_in. intros [[p x] q] H. rewrite Forall_forall in F. specialize (F _ H). cbn in F. destruct F as (A & B & C & _). rewrite strip_padded by assumption. reflexivity.
  - destruct words; [contradiction|discriminate].
  - apply Forall_forall. intros l H. apply in_map_iff in H. destruct H as ([[p x] q] & <- & H). rewrite Forall_forall in F. apply (F _ H).
Qed.
Print Assumptions C66_shapes.
(** An object without display settings or without shape is not plotted and does not raise. *)
Theorem C66_no_shape : forall registry d, plot_object_general registry None = Warned /\ (dd_getitem d "shape" = Err KeyError -> plot_object_general registry (Some d) = Warned).
Proof. intros registry d. split; [reflexivity|]. intros H. cbn. rewrite H. reflexivity. Qed.
Print Assumptions C66_no_shape.
Example C66_ex : plot_object_general ["box"; "surface"] (Some (DD [] (Some [("shape", "cylinder; surface ;box")]))) = Plotted "surface" /\
  plot_object_general ["box"] (Some (DD [("shape", "cylinder; None; box")] None)) = Hidden /\ plot_object_general ["box"] (Some (DD [("shape", "cylinder")] None)) = Warned.
Proof. repeat split. Qed.

(** C102: get_color returns three floats from 0 to 1, and does not change them when applied again. *)
Theorem C102_valid : forall to_rgb c out, (forall s l, to_rgb s = Ok l -> unit_floats l = true) -> get_color to_rgb c = Ok out -> unit_floats out = true.
Proof. exact get_color_unit. Qed.
Print Assumptions C102_valid.
Theorem C102_idempotent : forall to_rgb c out, (forall s l, to_rgb s = Ok l -> unit_floats l = true) -> get_color to_rgb c = Ok out -> get_color to_rgb (Some (ColTuple out)) = Ok out.
Proof. intros to_rgb c out T H. cbn [get_color]. rewrite (get_color_unit _ _ _ T H). reflexivity. Qed.
Print Assumptions C102_idempotent.
(** so the color that [plot_object_general] stores is accepted by [color_tuple_to_hex] *)
Theorem C102_accepted : forall to_rgb c out, (forall s l, to_rgb s = Ok l -> unit_floats l = true) -> get_color to_rgb c = Ok out -> exists s, color_tuple_to_hex out = Ok s /\ String.length s = 8.
Proof.
  intros to_rgb c out T H. assert (U := get_color_unit _ _ _ T H). unfold unit_floats in U. apply andb_prop in U. destruct U as [L U]. apply Nat.eqb_eq in L.
  destruct out as [|a [|b [|d [|]]]]; try discriminate. cbn [forallb] in U. rewrite andb_true_r in U. apply andb_prop in U. destruct U as [Ua U]. apply andb_prop in U. destruct U as [Ub Ud].
  assert (X : forall x, (is_float x && negb (Rltb (fval x) 0) && negb (Rltb 1 (fval x)))%bool = true -> exists r, x = CFloat r /\ (0 <= r <= 1)%R).
  { intros x Q. apply andb_prop in Q. destruct Q as [Q Q3]. apply andb_prop in Q. destruct Q as [Q1 Q2]. destruct x as [r| |]; try discriminate. exists r. split; [reflexivity|].
    apply negb_true_iff in Q2. apply negb_true_iff in Q3. cbn in Q2, Q3. apply Rltb_false in Q2. apply Rltb_false in Q3. split; assumption. }
  destruct (X a Ua) as (r1 & -> & H1). destruct (X b Ub) as (r2 & -> & H2). destruct (X d Ud) as (r3 & -> & H3). apply color_floats_length; assumption.
Qed.
Print Assumptions C102_accepted.
Example C102_ex : get_color (fun _ => Ok [CFloat 1; CFloat 0; CFloat 0]) (Some (ColName "red")) = Ok [CFloat 1; CFloat 0; CFloat 0].
Proof. reflexivity. Qed.

(** C103: faces of a parametric surface *)
Theorem C103_faces : forall n m f, In f (surface_faces n m) <->
  exists i j, i + 1 < n /\ j + 1 < m /\ f = [grid_index m i j; grid_index m i (j + 1); grid_index m (i + 1) (j + 1); grid_index m (i + 1) j].
Proof. exact surface_in. Qed.
Print Assumptions C103_faces.
Theorem C103_once : forall n m, NoDup (surface_faces n m) /\ length (surface_faces n m) = (n - 1) * (m - 1).
Proof. intros. split; [apply surface_nodup|apply surface_count]. Qed.
Print Assumptions C103_once.
Theorem C103_points : forall n m f i, In f (surface_faces n m) -> In i f -> i < n * m.
Proof.
  intros n m f i H Hi. apply surface_in in H. destruct H as (a & b & A & B & ->). cbn [In] in Hi. repeat (destruct Hi as [<-|Hi]; [apply grid_index_lt; lia|]). contradiction.
Qed.
Print Assumptions C103_points.
Example C103_ex : surface_faces 2 3 = [[0; 1; 4; 3]; [1; 2; 5; 4]].
Proof. reflexivity. Qed.

(** C104: half boxes. "+x" is the half at low x, for all three axes and both signs; everything else is the full box. *)
Theorem C104_half : forall j rest, In j [0; 1; 2] -> let a := nth j ["x"; "y"; "z"]%char "?"%char in
  (forall c, In c (halfbox (Some (String "+" (String a rest)))) -> (-1 <= coord j c <= 0)%Z) /\
  (forall c, In c (halfbox (Some (String "-" (String a rest)))) -> (0 <= coord j c <= 1)%Z).
Proof.
  intros j rest H. cbn [In] in H. destruct H as [<-|[<-|[<-|[]]]]; cbv zeta; (split; intros c Hc; cbn in Hc; repeat (destruct Hc as [<-|Hc]; [cbn; lia|]); contradiction).
Qed.
Print Assumptions C104_half.
(** The other two coordinates are not changed. *)
Theorem C104_other : forall s rest i j k, j <= 2 -> k <= 2 -> k <> j ->
  coord k (nth i (halfbox (Some (String s (String (nth j ["x"; "y"; "z"]%char "?"%char) rest)))) (0, 0, 0)%Z) = coord k (nth i box_corners (0, 0, 0)%Z).
Proof.
  intros s rest i j k Hj Hk Hn.
  assert (F : forall f, (forall c, coord k (f c) = coord k c) -> coord k (nth i (map f box_corners) (0, 0, 0)%Z) = coord k (nth i box_corners (0, 0, 0)%Z)).
  { intros f H. revert i. generalize box_corners. induction l as [|c l IH]; intros [|i]; cbn; auto. }
  destruct j as [|[|[|]]]; try lia; cbn [nth]; unfold halfbox; cbn [Ascii.eqb Bool.eqb andb];
  (apply F; intros [[x y] z]; destruct (Z.eqb _ _); destruct k as [|[|[|]]]; try lia; try contradiction; reflexivity).
Qed.
Print Assumptions C104_other.
Theorem C104_full : forall half, (forall s a rest, half = Some (String s (String a rest)) -> ~ In a ["x"; "y"; "z"]%char \/ ~ In s ["+"; "-"]%char) -> halfbox half = box_corners.
Proof.
  intros [[|s [|a rest]]|] H; try reflexivity. specialize (H s a rest eq_refl). unfold halfbox.
  destruct (Ascii.eqb_spec s "+"); [|destruct (Ascii.eqb_spec s "-")].
  - destruct H as [H|H]; [|contradiction H; left; auto]. destruct (Ascii.eqb_spec a "x"); [contradiction H; left; auto|]. destruct (Ascii.eqb_spec a "y"); [contradiction H; right; left; auto|].
    destruct (Ascii.eqb_spec a "z"); [contradiction H; right; right; left; auto|]. reflexivity.
  - destruct H as [H|H]; [|contradiction H; right; left; auto]. destruct (Ascii.eqb_spec a "x"); [contradiction H; left; auto|]. destruct (Ascii.eqb_spec a "y"); [contradiction H; right; left; auto|].
    destruct (Ascii.eqb_spec a "z"); [contradiction H; right; right; left; auto|]. reflexivity.
  - destruct (Ascii.eqb a "x"); [reflexivity|]. destruct (Ascii.eqb a "y"); [reflexivity|]. destruct (Ascii.eqb a "z"); reflexivity.
Qed.
Print Assumptions C104_full.
(** All faces (X3D) and triangles (mayavi) are in a side of the box. *)
Theorem C104_faces : forall f, In f (box_faces ++ box_triangles) -> exists j, j <= 2 /\ forall i i', In i f -> In i' f -> coord j (nth i box_corners (0, 0, 0)%Z) = coord j (nth i' box_corners (0, 0, 0)%Z).
Proof.
  intros f H. assert (X := face_plane). rewrite forallb_forall in X. specialize (X f H). apply existsb_exists in X. destruct X as (j & Hj & X). rewrite forallb_forall in X.
  exists j. split; [cbn in Hj; lia|]. intros i i' Hi Hi'. assert (A := X i Hi). assert (B := X i' Hi'). apply Z.eqb_eq in A. apply Z.eqb_eq in B. congruence.
Qed.
Print Assumptions C104_faces.
Example C104_ex : halfbox (Some "+x"%string) = [(-1,-1,-1); (-1,1,-1); (-1,-1,1); (-1,1,1); (0,-1,-1); (0,1,-1); (0,-1,1); (0,1,1)]%Z.
Proof. reflexivity. Qed.

(** C105: rays, no color or one color for each ray: each ray is drawn once, in its color. *)
Theorem C105_per_ray_partial : forall {A} (rays : list A) N s distinct, (s = NoScalar \/ exists l, s = PerRay l /\ length l = length rays) ->
  (forall l, NoDup (distinct l) /\ (forall c, In c l <-> In c (distinct l))) ->
  let colors := match s with PerRay l => l | _ => repeat 1%R (length rays) end in
  exists out, plot_rays rays N s distinct = Ok out /\ Permutation (concat (map snd out)) rays /\
    (forall c set r, In (c, set) out -> In r set <-> exists i, nth_error colors i = Some c /\ nth_error rays i = Some r).
Proof.
  intros A rays N s distinct H D colors. assert (C : ray_colors (length rays) N s = Ok colors /\ length colors = length rays).
  { destruct H as [->|(l & -> & L)]; unfold colors; cbn [ray_colors]; [split; [reflexivity|apply repeat_length]|]. rewrite L, Nat.eqb_refl. auto. }
  destruct C as [C L]. unfold plot_rays. rewrite C. cbn [bind]. destruct (D colors) as [D1 D2]. destruct (rays_ok rays colors (distinct colors) L D1 D2) as (out & O1 & _ & O2 & O3).
  exists out. auto.
Qed.
Print Assumptions C105_per_ray_partial.
(** C105, false for one color per point: the colors of the points of the first ray are used instead of the colors of the first point of the rays. *)
Theorem C105_per_point_refuted : forall {A} (rays : list A) N l distinct, length l = length rays -> forallb (fun r => Nat.eqb (length r) N) l = true -> 0 < length rays -> 0 < N -> N <> length rays ->
  (forall x, x <> [] -> distinct x <> []) -> plot_rays rays N (PerPoint l) distinct = Err IndexError.
Proof.
  intros A rays N l distinct L F P PN NE D. unfold plot_rays. cbn [ray_colors]. rewrite L, Nat.eqb_refl, F. cbn [andb]. destruct l as [|r l]; [cbn in L; lia|]. cbn [bind].
  cbn [forallb] in F. apply andb_prop in F. destruct F as [F _]. apply Nat.eqb_eq in F. unfold drawn. rewrite F. rewrite (proj2 (Nat.eqb_neq _ _) NE). cbn [negb].
  assert (Q : distinct r <> []) by (apply D; intros ->; cbn in F; lia). destruct (distinct r); [contradiction|reflexivity].
Qed.
Print Assumptions C105_per_point_refuted.
Theorem C105_wrong_color_refuted : plot_rays ["first"; "second"]%string 2 (PerPoint [[1; 2]; [1; 2]]%R) (fun l => l) = Ok [(1, ["first"]); (2, ["second"])]%R%string.
Proof.
  unfold plot_rays, drawn. cbn. assert (A : Reqb 1 1 = true) by (apply Reqb_true; reflexivity). assert (B : Reqb 2 2 = true) by (apply Reqb_true; reflexivity).
  assert (C : Reqb 1 2 = false) by (apply Reqb_false; intros H; apply eq_IZR in H; discriminate). assert (D : Reqb 2 1 = false) by (apply Reqb_false; intros H; apply eq_IZR in H; discriminate).
  rewrite A, B, C, D. reflexivity.
Qed.
Print Assumptions C105_wrong_color_refuted.
Example C105_example : exists out, plot_rays ["first"; "second"]%string 5 (PerRay [2; 1]%R) (nodup Req_EM_T) = Ok out /\ (forall set r, In (1%R, set) out -> In r set <-> r = "second"%string).
Proof.
  destruct (C105_per_ray_partial ["first"; "second"]%string 5 (PerRay [2; 1]%R) (nodup Req_EM_T)) as (out & H & _ & S); [right; exists [2; 1]%R; now split|intros l; split; [apply NoDup_nodup|intros c; symmetry; apply nodup_In]|].
  exists out. split; [exact H|]. intros set r I. rewrite (S 1%R set r I). split.
  - intros (i & C & R). destruct i as [|[|i]]; cbn in C, R; [|congruence|destruct i; discriminate]. exfalso. assert (E : 2%R = 1%R) by congruence. apply eq_IZR in E. discriminate.
  - intros ->. exists 1. split; reflexivity.
Qed.

(** C106: three.js material: every known property is passed on, nothing else, and something with an opacity is transparent. *)
Theorem C106_material : forall {V} (t : V) known display k, NoDup (dkeys display) ->
  (k <> "transparent"%string -> dget k (materialdict t known display) = if inb k known then dget k display else None) /\
  (din "transparent" display = false -> din "opacity" display = true -> dget "transparent" (materialdict t known display) = Some t) /\
  (din "transparent" display = true -> dget "transparent" (materialdict t known display) = if inb "transparent" known then dget "transparent" display else None).
Proof.
  intros V t known display k ND. assert (F : forall k, dget k (filter (fun kv => inb (fst kv) known) display) = if inb k known then dget k display else None).
  { clear. intros k. induction display as [|[k' v] d IH]; [cbn; destruct (inb k known); reflexivity|]. cbn [filter fst]. destruct (inb k' known) eqn:I; cbn [dget].
    - destruct (String.eqb_spec k k') as [->|N]; [rewrite I; reflexivity|exact IH].
    - destruct (String.eqb_spec k k') as [->|N]; [rewrite I in *; exact IH|exact IH]. }
  unfold materialdict. split; [|split].
  - intros N. destruct (din "opacity" display && negb (din "transparent" display))%bool; [rewrite dget_dset_neq by exact N|]; apply F.
  - intros -> ->. cbn [andb negb]. apply dget_dset_eq.
  - intros ->. rewrite andb_false_r. apply F.
Qed.
Print Assumptions C106_material.
Example C106_ex : materialdict 0 ["opacity"; "color"] [("opacity", 1); ("shape", 2)]%string = [("opacity", 1); ("transparent", 0)]%string.
Proof. reflexivity. Qed.

(** C107, false: a container with at least one element cannot be converted, a file with photons cannot be written, and a material with at least one property
    cannot be formatted. *)
Theorem C107_container_refuted : forall {A} (e : A) l, json_container (e :: l) = Err NameError.
Proof. reflexivity. Qed.
Print Assumptions C107_container_refuted.
Theorem C107_photons_refuted : forall {A} (data : list A), json_write data true = Err TypeError.
Proof. reflexivity. Qed.
Print Assumptions C107_photons_refuted.
Theorem C107_materialspec_refuted : forall {V} k (v : V) l, materialspec ((k, v) :: l) = Err NameError.
Proof. reflexivity. Qed.
Print Assumptions C107_materialspec_refuted.
Example C107_example : json_container ["plate"]%string = Err NameError /\ json_write ["plate"]%string true = Err TypeError /\ materialspec [("color", 1%Z)]%string = Err NameError.
Proof. repeat split. Qed.

(** C103: triangles of a strip of points: each three consecutive points, no other points *)
Theorem C103_strip : forall n t, In t (triangulate_parametricsurface n) <-> exists i, i + 2 < n /\ t = (i, i + 1, i + 2).
Proof.
  intros n t. unfold triangulate_parametricsurface. rewrite in_map_iff. split.
  - intros (i & <- & I). apply in_seq in I. exists i. split; [lia|reflexivity].
  - intros (i & L & ->). exists i. split; [reflexivity|]. apply in_seq. lia.
Qed.
Print Assumptions C103_strip.
(** C104: going around a face of the box (X3D), each step changes one coordinate; the six faces are different sides *)
Definition box_diff (i j : nat) : nat := length (filter (fun k => negb (Z.eqb (coord k (nth i box_corners (0, 0, 0)%Z)) (coord k (nth j box_corners (0, 0, 0)%Z)))) [0; 1; 2]).
Definition side_of (j : nat) (v : Z) (f : list nat) : bool := forallb (fun i => Z.eqb (coord j (nth i box_corners (0, 0, 0)%Z)) v) f.
Theorem C104_cycle : forall a b c d, In [a; b; c; d] box_faces -> box_diff a b = 1 /\ box_diff b c = 1 /\ box_diff c d = 1 /\ box_diff d a = 1.
Proof. intros a b c d H. cbn [box_faces In] in H. repeat (destruct H as [H|H]; [injection H as <- <- <- <-; repeat split; reflexivity|]). contradiction. Qed.
Print Assumptions C104_cycle.
Theorem C104_sides : forall j v, j <= 2 -> v = 1%Z \/ v = (-1)%Z -> exists f, filter (side_of j v) box_faces = [f] /\ length f = 4.
Proof. intros j v J V. destruct j as [|[|[|j]]]; try lia; destruct V as [-> | ->]; eexists; split; reflexivity. Qed.
Print Assumptions C104_sides.
(** each side is made of two triangles (mayavi) on opposite sides of a diagonal *)
Theorem C104_two_triangles : forall j v, j <= 2 -> v = 1%Z \/ v = (-1)%Z -> exists t1 t2 p q r s, filter (side_of j v) box_triangles = [t1; t2] /\
  (forall i, In i t1 <-> i = p \/ i = q \/ i = r) /\ (forall i, In i t2 <-> i = p \/ i = q \/ i = s) /\ box_diff p q = 2 /\ box_diff r s = 2 /\ box_diff p r = 1 /\ box_diff q r = 1 /\ box_diff p s = 1 /\ box_diff q s = 1.
Proof.
  intros j v J V. destruct j as [|[|[|j]]]; try lia; destruct V as [-> | ->]; do 2 eexists.
  - exists 7, 4, 6, 5. split; [reflexivity|]. cbn [In]. split; [intros; lia|]. split; [intros; lia|]. repeat split; reflexivity.
  - exists 0, 3, 1, 2. split; [reflexivity|]. cbn [In]. split; [intros; lia|]. split; [intros; lia|]. repeat split; reflexivity.
  - exists 7, 1, 3, 5. split; [reflexivity|]. cbn [In]. split; [intros; lia|]. split; [intros; lia|]. repeat split; reflexivity.
  - exists 0, 6, 2, 4. split; [reflexivity|]. cbn [In]. split; [intros; lia|]. split; [intros; lia|]. repeat split; reflexivity.
  - exists 7, 2, 3, 6. split; [reflexivity|]. cbn [In]. split; [intros; lia|]. split; [intros; lia|]. repeat split; reflexivity.
  - exists 0, 5, 1, 4. split; [reflexivity|]. cbn [In]. split; [intros; lia|]. split; [intros; lia|]. repeat split; reflexivity.
Qed.
Print Assumptions C104_two_triangles.
(** C66: the white space that is removed around a shape: tab to carriage return, separators and blanks *)
Theorem C66_white_space : forall c, is_space c = true <-> In (nat_of_ascii c) [9; 10; 11; 12; 13; 28; 29; 30; 31; 32].
Proof.
  intros c. unfold is_space. cbn [In]. generalize (nat_of_ascii c). intros n. destruct (Nat.eqb_spec n 32), (Nat.leb_spec 9 n), (Nat.leb_spec n 13), (Nat.leb_spec 28 n), (Nat.leb_spec n 31); cbn [orb andb]; split; intros; try reflexivity; try discriminate; lia.
Qed.
Print Assumptions C66_white_space.
(** C64: the digits are 0 to 9 and a to f *)
Theorem C64_digits : forall d, (0 <= d < 16)%Z -> nat_of_ascii (hexdigit d) = Z.to_nat (if (d <? 10)%Z then 48 + d else 87 + d).
Proof. intros d H. assert (D : In d [0; 1; 2; 3; 4; 5; 6; 7; 8; 9; 10; 11; 12; 13; 14; 15]%Z) by (cbn [In]; lia). cbn [In] in D. repeat (destruct D as [<-|D]; [reflexivity|]). destruct D. Qed.
Print Assumptions C64_digits.
(** C66: [C66_shapes] for the text of the display settings *)
Theorem C66_shapes_text : forall (words : list (list ascii * list ascii * list ascii)), words <> [] ->
  Forall (fun w => let '(p, x, q) := w in forallb is_space p = true /\ forallb is_space q = true /\ trimmed x /\ ~ In ";"%char (p ++ x ++ q)) words ->
  shapes_of (string_of_list_ascii (join ";" (map (fun w => let '(p, x, q) := w in p ++ x ++ q) words))) = map (fun w => let '(p, x, q) := w in string_of_list_ascii x) words.
Proof. intros words N F. unfold shapes_of. rewrite list_ascii_of_string_of_list_ascii. now apply C66_shapes. Qed.
Print Assumptions C66_shapes_text.
