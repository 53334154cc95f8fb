(** Arcus, second part: mirrors, entrance windows and gratings.  Models /repo/marxs/missions/arcus/spo.py:7-64,
    /repo/marxs/missions/athena/spo.py:30-51, 61-85, 106-145, /repo/marxs/missions/arcus/arcus.py:179-260, 263-277,
    /repo/marxs/missions/arcus/utils.py:14-17, /repo/marxs/missions/arcus/ralfgrating.py:22-156 (not the class RegularGrid, apart from its
    ranges, lines 148-151).  Lengths in mm, angles in radian; tables are lists of rows. *)
From Coq Require Import String Ascii.
From Verif Require Export Placement_Model Arcus_Model.
From Coq Require Import List.
Export ListNotations.
Open Scope R_scope.

(** ** arcus/spo.py *)
(** [max()] and [min()] of a column; ValueError for an empty table *)
Definition vmax (l : list R) : result R := match l with [] => Err ValueError | x :: r => Ok (fold_right Rmax x r) end.
Definition vmin (l : list R) : result R := match l with [] => Err ValueError | x :: r => Ok (fold_right Rmin x r) end.
(** one row of the table of mirrors, the columns that are used *)
Record spo_row := Spo { s_rmid : R; s_clock : R; s_len : R; s_az : R; s_plate : R; s_outer : R; s_inner : R }.
(** spo.py:7-28 [rmid_spo] *)
Definition rmid_spo (pos : list m4) : result R :=
  bind (vmax (map (fun p => y3 (tra p)) pos)) (fun hi => bind (vmin (map (fun p => y3 (tra p)) pos)) (fun lo => Ok (1 / 2 * (hi + lo)))).
(** spo.py:31-64 [zoom_to_cover_all_spos] *)
Definition zoom_to_cover_all_spos (pos : list m4) (geom : list spo_row) (azscale rscale : R) : result v3 :=
  bind (vmax (map (fun p => x3 (tra p)) pos)) (fun xhi => bind (vmin (map (fun p => x3 (tra p)) pos)) (fun xlo =>
  let azmid := 1 / 2 * (xhi + xlo) in
  bind (rmid_spo pos) (fun rmid =>
  bind (vmax (map s_az geom)) (fun daz => bind (vmax (map (fun g => s_outer g - s_inner g) geom)) (fun dr =>
  bind (vmax (map (fun p => y3 (tra p)) pos)) (fun yhi =>
  Ok (V3 1 (xhi - azmid + azscale * daz) (yhi - rmid + rscale * dr)))))))).

(** ** athena/spo.py:30-51 and arcus.py:79: positions of the mirrors *)
Definition spogeom2pos4d (geom : list spo_row) : list m4 :=
  map (fun g => compose (V3 0 (s_rmid g * sin (s_clock g)) (s_rmid g * cos (s_clock g))) (euler2mat (V3 (- s_clock g) 0 0))
                        (V3 (s_len g) (s_az g / 2) (36 * s_plate g / 2))) geom.
Definition spo_pos4d (geom : list spo_row) : list m4 := map (mul4 xyz2zxy) (spogeom2pos4d geom).

(** ** Names of channels *)
(** [c in chan] for one character *)
Fixpoint has_char (c : ascii) (s : string) : bool := match s with EmptyString => false | String d r => Ascii.eqb d c || has_char c r end.
(** utils.py:14-17 *)
Definition id_num_offset : dict Z := [("1"%string, 0%Z); ("2"%string, 1000%Z); ("1m"%string, 10000%Z); ("2m"%string, 11000%Z)].

(** ** arcus.py:179-222 [Aperture]: the pos4d of the rectangle of each channel.  [pos_opt_ax] is the dictionary of the configuration. *)
Definition aperture_position (rmid : R) (chan : string) (ax : v4) : result v3 :=
  let p := add3 (xyz ax) (V3 0 0 12200) in
  bind (if has_char "1" chan then Ok (add3 p (V3 0 rmid 0))
        else if has_char "2" chan then Ok (sub3 p (V3 0 rmid 0)) else Err ValueError) (fun q =>
  Ok (V3 (x3 q) (y3 q) 12200)).
Definition lookup {V} (k : string) (d : dict V) : result V := match dget k d with Some v => Ok v | None => Err KeyError end.
Fixpoint collectr {A B} (f : A -> result B) (l : list A) : result (list B) :=
  match l with [] => Ok [] | a :: r => bind (f a) (fun b => bind (collectr f r) (fun bs => Ok (b :: bs))) end.
Definition apertures (pos_opt_ax : dict v4) (pos : list m4) (geom : list spo_row) (channels : list string) : result (list m4) :=
  bind (zoom_to_cover_all_spos pos geom (11 / 10) (8 / 10)) (fun aperzoom =>
  collectr (fun chan => bind (lookup chan pos_opt_ax) (fun ax => bind (rmid_spo pos) (fun rmid =>
    bind (aperture_position rmid chan ax) (fun p => Ok (compose p (lin xyz2zxy) aperzoom))))) channels).

(** ** arcus.py:225-249 [SimpleSPOs]: for each channel the container of mirrors and the range of numbers that its scatter takes *)
(** euler2mat(pi, 0, 0, 'szyx') *)
Definition rot180 : m3 := axangle2mat_n (V3 0 0 1) PI.
Definition spo_channel (pos_opt_ax : dict v4) (pos : list m4) (args : dict pyv) (name : nat -> pyv) (chan : string) : result (parallel * (Z * Z)) :=
  bind (lookup chan pos_opt_ax) (fun ax => bind (lookup chan id_num_offset) (fun off =>
  let entrancepos := add3 (xyz ax) (V3 0 0 12000) in
  let rot := if has_char "1" chan then id3 else rot180 in
  Ok (new_parallel (compose entrancepos rot ones3) pos args off name, (off, (off + 1000)%Z)))).
Definition simple_spos pos_opt_ax pos args name (channels : list string) : result (list (parallel * (Z * Z))) :=
  collectr (spo_channel pos_opt_ax pos args name) channels.
(** athena/spo.py:127-138 [ScatterPerChannel.__call__] for one photon; [scatter] is the change of direction by
    RadialMirrorScatter.specific_process_photons (C28) *)
Definition in_channel (range : Z * Z) (xou : Z) : bool := (Z.leb (fst range) xou && Z.ltb xou (snd range))%bool.
Record sphoton := SPh { sp_pos : v4; sp_dir : v4; sp_xou : Z; sp_prob : R }.
Definition scatter_channel (scatter : v4 -> v4) (range : Z * Z) (p : sphoton) : sphoton :=
  if in_channel range (sp_xou p) then SPh (sp_pos p) (scatter (sp_dir p)) (sp_xou p) (sp_prob p) else p.
Definition scatter_all (scatter : Z * Z -> v4 -> v4) (ranges : list (Z * Z)) (p : sphoton) : sphoton :=
  fold_left (fun q r => scatter_channel (scatter r) r q) ranges p.
(** athena/spo.py:141-145 [spomounting] *)
Definition spomounting (p : sphoton) : sphoton := SPh (sp_pos p) (sp_dir p) (sp_xou p) (if (sp_xou p <? 0)%Z then 0 else sp_prob p).

(** ** ralfgrating.py: gratings from the mechanical model *)
(** one row of the table of facets *)
Record facet := Facet { f_pos : v3; f_norm : v3; f_disp : v3; f_gbar : v3; f_x : R; f_y : R; f_mm : Z; f_num : Z; f_period : R }.
(** lines 42-48 *)
Definition facet_pos4d (f : facet) : m4 := compose (f_pos f) (M3 (f_norm f) (f_disp f) (f_gbar f)) (V3 1 (f_x f / 2) (f_y f / 2)).
(** lines 50-58 *)
Definition mirr (chan : string) : m4 :=
  aff (diag3 (V3 (if has_char "m" chan then 1 else -1) (if has_char "2" chan then -1 else 1) 1)) zero3.
(** the mean of the last column; a matrix with nan for an empty table, which does not occur below *)
Definition sum3 (l : list v3) : v3 := fold_right add3 zero3 l.
Definition mean_pos (l : list m4) : v3 := scale3 (/ INR (List.length l)) (sum3 (map tra l)).
(** [np.eye(4)] with the last column replaced; its inverse (np.linalg.inv) is exact *)
Definition shift3 (p : v3) : m4 := shift_matrix (hom p 1).
Definition shift3_inv (p : v3) : m4 := shift3 (neg3 p).
(** [sorted(set(...))] *)
Fixpoint ins_uniq (z : Z) (l : list Z) : list Z :=
  match l with [] => [z] | y :: r => if Z.ltb z y then z :: l else if Z.eqb z y then l else y :: ins_uniq z r end.
Definition sorted_set (l : list Z) : list Z := fold_right ins_uniq [] l.
(** A window: its place relative to the petal, and id_num_offset, d and the positions of its gratings *)
Record window := Window { w_pos : m4; w_id : Z; w_d : list R; w_grat : list m4 }.
(** lines 74-85; [offset]: the keyword id_num_offset, or 0 *)
Definition make_window (offset : Z) (data : list (facet * m4)) (i : Z) : window :=
  let sel := filter (fun d => Z.eqb (f_mm (fst d)) i) data in
  let c := mean_pos (map snd sel) in
  Window (shift3 c) (offset + match sel with [] => 0 | d :: _ => f_num (fst d) end) (map (fun d => f_period (fst d)) sel)
         (map (fun d => mul4 (shift3_inv c) (snd d)) sel).
(** lines 37-99: the pos4d of the petal and its windows *)
Definition cat_from_mechanical (P : m4) (offset : Z) (chan : string) (data : list facet) : m4 * list window :=
  let pos4d := map (fun f => mul4 (mirr chan) (facet_pos4d f)) data in
  let c := mean_pos pos4d in
  let rel := map (mul4 (shift3_inv c)) pos4d in
  (mul4 (shift3 c) P, map (make_window offset (combine data rel)) (sorted_set (map f_mm data))).
(** lines 87-114: the petal is a Parallel of windows, each window is a Parallel of gratings.  [args], [name]: the remaining arguments *)
Definition petal_windows (pw : m4 * list window) (offset : Z) (args : dict pyv) (name : nat -> pyv) : parallel :=
  new_parallel (fst pw) (map w_pos (snd pw)) args offset name.
Definition window_gratings (wpos : m4) (w : window) (args : dict pyv) (name : nat -> pyv) : parallel :=
  new_parallel wpos (w_grat w) args (w_id w) name.
(** arcus.py:263-275 [CATGratings]: the petal of channel [chan] *)
Definition cat_gratings_pos (ax : v4) : m4 := shift_matrix ax.

(** ** ralfgrating.py:130-131, 148-151: the ranges of the regular grid of gratings; widths with scale 1/2 *)
Definition sort2 (a b : R) : R * R := if Rltb b a then (b, a) else (a, b).
Definition grid_ranges (pos : list m4) (geom : list spo_row) (chan : string) : result ((R * R) * (R * R)) :=
  bind (zoom_to_cover_all_spos pos geom (1 / 2) (1 / 2)) (fun z => bind (rmid_spo pos) (fun rmid =>
  let sig := if has_char "1" chan then 1 else -1 in
  Ok ((- y3 z, y3 z), sort2 (sig * (rmid - z3 z)) (sig * (rmid + z3 z))))).

(** ** Spec *)
(** Spec: the rectangle with the pos4d [m] (spanned by its local y and z axes) covers the point [p], looking along the z axis of space *)
Definition covers (m : m4) (p : v3) : Prop :=
  exists a b, -1 <= a <= 1 /\ -1 <= b <= 1 /\ x3 p = x4 (center m) + a * x4 (v_y m) + b * x4 (v_z m) /\
              y3 p = y4 (center m) + a * y4 (v_y m) + b * y4 (v_z m).
(** Spec: the number of ranges that take a photon *)
Definition takers (ranges : list (Z * Z)) (xou : Z) : nat := List.length (filter (fun r => in_channel r xou) ranges).
(** Spec: a facet with perpendicular axes that are not zero *)
Definition good_facet (f : facet) : Prop := orthonormal (M3 (f_norm f) (f_disp f) (f_gbar f)) /\ f_x f <> 0 /\ f_y f <> 0.
(** Spec: facet [k] in the selection of window [i] *)
Definition facets_of (i : Z) (data : list facet) : list facet := filter (fun f => Z.eqb (f_mm f) i) data.
(** Spec: channels with a 1 in the name are on the side of positive y *)
Definition chan_sign (chan : string) : R := if has_char "1" chan then 1 else -1.
(** Spec: the mirror images for the channels *)
Definition sx (chan : string) : R := if has_char "m" chan then 1 else -1.
Definition sy (chan : string) : R := if has_char "2" chan then -1 else 1.
Definition flip (chan : string) (v : v3) : v3 := V3 (sx chan * x3 v) (sy chan * y3 v) (z3 v).
(** Spec: the mean place of all gratings, relative to the focal point *)
Definition petal_shift (chan : string) (data : list facet) : v3 := mean_pos (map (fun f => mul4 (mirr chan) (facet_pos4d f)) data).
