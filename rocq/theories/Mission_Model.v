(** CAT gratings, booms, filters, baffles and tables: models /repo/marxs/missions/mitsnl/catgrating.py:147-325, /repo/marxs/missions/arcus/boom.py,
    /repo/marxs/optics/filter.py, /repo/marxs/optics/baffles.py:30-55 and /repo/marxs/utils.py:59-100.
    Units are left out: all lengths in the same unit. *)
From Verif Require Export Placement_Model Cylinder_Model Plane_Model.
Open Scope R_scope.

(** ** CAT gratings *)
(** catgrating.py:160-162 [QualityFactor] *)
Definition qf_factor (sigma d : R) : R := exp (- (2 * PI * sigma / d) ^ 2).
Definition qf_probability (factor : R) (order : Z) : R := factor ^ (Z.to_nat (order * order)).
(** catgrating.py:165-168 [check_lx_dims] *)
Definition check_lx_dims (barwidth period : R) : result unit := if Rltb barwidth period then Ok tt else Err ValueError.

(** What the diffraction of [CATGrating] returns for one photon that hits, and what is looked at in the photon list *)
Record catres := Cat { c_dir : v4; c_pol : v4; c_order : Z; c_blaze : R; c_prob : R }.
Record l1photon := L1P { l_dir : v4; l_pol : v4; l_energy : R }.
(** [intersect.nonzero()[0]] *)
Fixpoint nonzero_from (i : nat) (mask : list bool) : list nat :=
  match mask with [] => [] | b :: r => if b then i :: nonzero_from (S i) r else nonzero_from (S i) r end.
Definition l1_open (barwidth period : R) : R := 1 - barwidth / period.
(** catgrating.py:199-215, one photon that hits: [p] is the photon with the index from nonzero, [transfunc] the interpolated table, which
    raises ValueError outside of its range *)
Definition l1_photon (openfraction : R) (transfunc : R -> result R) (c : catres) (p : l1photon) (draw : R) : result catres :=
  if Rltb openfraction draw then bind (transfunc (l_energy p)) (fun t => Ok (Cat (l_dir p) (l_pol p) 0 (c_blaze c) t)) else Ok c.
Fixpoint l1_rows (openfraction : R) (transfunc : R -> result R) (photons : list l1photon) (cat : list catres) (index : list nat) (draws : list R) : result (list catres) :=
  match cat, index, draws with
  | c :: cat', i :: index', r :: draws' =>
      match nth_error photons i with
      | None => Err IndexError
      | Some p => bind (l1_photon openfraction transfunc c p r) (fun c' => bind (l1_rows openfraction transfunc photons cat' index' draws') (fun l => Ok (c' :: l)))
      end
  | _, _, _ => Ok []
  end.
(** catgrating.py:199-215 [L1.specific_process_photons]; [cat]: result of the diffraction *)
Definition l1_process (openfraction : R) (transfunc : R -> result R) (photons : list l1photon) (mask : list bool) (cat : list catres) (draws : list R) : result (list catres) :=
  l1_rows openfraction transfunc photons cat (nonzero_from 0 mask) draws.

(** catgrating.py:240-254 [L2Abs.specific_process_photons]; [cosang]: scalar product of the unit vectors along the ray and the normal *)
Definition l2_probability (bardepth period barwidth cosang : R) : R :=
  let innerfree := period - barwidth in
  let angle := acos (Rabs cosang) in
  let openfraction := (innerfree / period) ^ 2 in
  let shadowarea := bardepth * innerfree * sin angle in
  let totalarea := period ^ 2 / 2 * sqrt 3 in
  openfraction - shadowarea / totalarea.

(** catgrating.py:315-325 [catsupportbars]; [facet]: [None] if there is no such column *)
Definition catsupportbars (facet : option (list Z)) (probability : list R) : list R :=
  match facet with
  | Some f => map (fun p : Z * R => if (fst p <? 0)%Z then 0 else snd p) (combine f probability)
  | None => map (fun _ => 0) probability
  end.

(** ** Booms *)
(** boom.py:20-25 [Rod.process_photons]: column hitrod ([None]: not there) and probabilities *)
Definition rod_process (mask : list bool) (s : option (list bool) * list R) : option (list bool) * list R :=
  let hit := match fst s with Some h => h | None => map (fun _ => false) (snd s) end in
  (Some (map (fun p : bool * bool => if fst p then true else snd p) (combine mask hit)), map (fun p : bool * R => if fst p then 0 else snd p) (combine mask (snd s))).
(** a boom: one rod after the other, [masks]: which photons hit them. Rods do not move photons. *)
Definition boom (masks : list (list bool)) (s : option (list bool) * list R) : option (list bool) * list R := fold_left (fun s m => rod_process m s) masks s.

(** rotations around the coordinate axes (transforms3d) *)
Definition rotx (a : R) : m3 := axangle2mat_n (V3 1 0 0) a.
Definition roty (a : R) : m3 := axangle2mat_n (V3 0 1 0) a.
Definition rotz (a : R) : m3 := axangle2mat_n (V3 0 0 1) a.
Record boomdims := BD { l_longeron : R; l_batten : R; l_diag : R; d_longeron : R; d_batten : R; d_diag : R }.
(** boom.py:61-88 [ThreeSidedBoom.one_window]. [deg]: np.deg2rad *)
Definition deg (a : R) : R := a * (PI / 180).
Definition window3 (b : boomdims) : list m4 :=
  let side := - (PI / 6) in
  let t := V3 (l_longeron b / 2) (l_batten b / 4 / sqrt 3) (l_batten b / 4) in
  let zd := V3 (l_diag b / 2) (d_diag b / 2) (d_diag b / 2) in
  [compose (V3 (l_longeron b / 2) (l_batten b / sqrt 3) 0) id3 (V3 (l_longeron b / 2) (d_longeron b / 2) (d_longeron b / 2));
   compose (V3 0 (l_batten b / 4 / sqrt 3) (l_batten b / 4)) (mul3 (rotx side) (rotz (PI / 2))) (V3 (l_batten b / 2) (d_batten b / 2) (d_batten b / 2));
   compose t (mul3 (rotx side) (rotz (deg (90 - 3403 / 100)))) zd;
   compose t (mul3 (rotx side) (rotz (deg (90 + 3403 / 100)))) zd].
(** boom.py:125-150 [FourSidedBoom.one_window] *)
Definition window4 (b : boomdims) : list m4 :=
  let t := V3 (l_longeron b / 2) (l_batten b / 2) 0 in
  let zd := V3 (l_diag b / 2) (d_diag b / 2) (d_diag b / 2) in
  let ang := asin (l_batten b / l_diag b) in
  [compose (V3 (l_longeron b / 2) (l_batten b / 2) (l_batten b / 2)) id3 (V3 (l_longeron b / 2) (d_longeron b / 2) (d_longeron b / 2));
   compose (V3 0 (l_batten b / 2) 0) (roty (PI / 2)) (V3 (l_batten b / 2) (d_batten b / 2) (d_batten b / 2));
   compose t (roty ang) zd;
   compose t (roty (- ang)) zd].
(** boom.py:92-104 [pos_spec] *)
Definition bay (b : boomdims) (n_sides : nat) (h i : nat) : m4 := compose (V3 (INR h * l_longeron b) 0 0) (rotx (INR (i * 2) * PI / INR n_sides)) ones3.
Definition pos_spec (b : boomdims) (window : list m4) (start_bay n_bays n_sides : nat) : list m4 :=
  flat_map (fun h => flat_map (fun i => map (mul4 (bay b n_sides h i)) window) (seq 0 n_sides)) (seq start_bay (n_bays - start_bay)).
(** Spec: the two ends of the axis of a rod: "X-axis of the rod is the cylinder axis (x-zoom gives half-length)" *)
Definition rod_end (s : R) (m : m4) : v3 := xyz (app4 m (V4 s 0 0 1)).
(** Spec: the surface of the rod that boom.py:11-14 describes, in local coordinates *)
Definition on_rod (q : v3) : Prop := y3 q * y3 q + z3 q * z3 q = 1 /\ -1 <= x3 q <= 1.

(** ** Filters *)
(** filter.py:48-53 [GlobalEnergyFilter.__call__]: [None] is nan, which is neither smaller than 0 nor larger than 1 *)
Definition bad_p (p : option R) : bool := match p with Some x => Rltb x 0 || Rltb 1 x | None => false end.
Definition nan_mul (a : R) (p : option R) : option R := match p with Some x => Some (a * x) | None => None end.
Definition global_filter (f : R -> option R) (photons : list (R * R)) : result (list (R * option R)) :=
  if existsb (fun ph => bad_p (f (fst ph))) photons then Err ValueError else Ok (map (fun ph => (fst ph, nan_mul (snd ph) (f (fst ph)))) photons).

(** ** Baffles *)
(** baffles.py:30-55 [triangulate_inner_outer]: corners of a square with center and two vectors *)
Definition square (c a b : v3) (r : R) : list v3 :=
  [add3 c (scale3 r (add3 a b)); add3 c (scale3 r (add3 (neg3 a) b)); add3 c (scale3 r (sub3 (neg3 a) b)); add3 c (scale3 r (sub3 a b))].
Definition baffle_points (m : m4) (r_out : R) : list v3 := square (tra m) (xyz (v_x m)) (xyz (v_y m)) r_out ++ square (tra m) (xyz (v_x m)) (xyz (v_y m)) 1.

(** ** Tables *)
Definition allclose (rtol atol a b : R) : bool := Rleb (Rabs (a - b)) (atol + rtol * Rabs b).
(** [len(set(l))] *)
Fixpoint distinct (l : list R) : list R := match l with [] => [] | x :: r => if existsb (Reqb x) r then distinct r else x :: distinct r end.
(** utils.py:59-100 [tablerows_to_2d]; [data]: the other columns; all columns have the same number of rows. Errors: DataFileFormatException. An empty table is
    accepted by the first test and raises IndexError later. *)
Definition tablerows_to_2d (x y : list R) (data : list (list R)) : result (list R * list R * list (list (list R))) :=
  let n_x := length (distinct x) in
  let n_y := length (distinct y) in
  if negb (Nat.eqb (length x) (n_x * n_y)) then Err Exception else
  if Nat.eqb (length x) 0 then Err IndexError else
  let cell (c : list R) i j := nth (i * n_y + j) c 0 in
  if forallb (fun i => forallb (fun j => allclose (1 / 100000) (1 / 100000000) (cell x i j) (cell x i 0%nat) && allclose (1 / 100000) (1 / 100000000) (cell y i j) (cell y 0%nat j)) (seq 0 n_y)) (seq 0 n_x)
  then Ok (map (fun i => cell x i 0%nat) (seq 0 n_x), map (fun j => nth j y 0) (seq 0 n_y), map (fun c => map (fun i => map (fun j => cell c i j) (seq 0 n_y)) (seq 0 n_x)) data)
  else Err Exception.
