(** Tables to and from the C structures of MARX: models /repo/marxs/optics/marx.py:80-183 (MarxMirror._table2c, _c2table, _process_photons_in_c), the decorator
    photonlocalcoords of /repo/marxs/optics/base.py:284-316, add_colpos of /repo/marxs/optics/aperture.py:19-27 and the arguments that
    marx.py:201-202 passes to parallel_transport.
    The C function marx_mirror_reflect is an argument: it gets the structure and returns a status and the changed structure.  Numbers in C are exact; the two flags are
    booleans.  A table is a list of rows; an element of a C array beyond its end (undefined in C) is IndexError.  [np.argsort] is stable here. *)
From Verif Require Export Coords_Model Placement_Model Rot_Model.
Open Scope R_scope.

Record mrow := MRow { m_pos : v4; m_dir : v4; m_energy : R; m_time : R; m_pol : v4 }.
(** a photon table; [None]: there is no column tag *)
Record mtable := MTable { mt_rows : list mrow; mt_tag : option (list Z) }.
Record cattr := CAttr { ca_energy : R; ca_x : v3; ca_p : v3; ca_time : R; ca_tag : Z; ca_unreflected : bool; ca_vblocked : bool; ca_shell : Z }.
Record clist := CList { cl_attr : list cattr; cl_n : nat; cl_max_n : nat; cl_total_time : R; cl_start_time : R; cl_index : list nat; cl_energies : list R; cl_num_sorted : nat }.

(** aperture.py:19-27: a new column pos is (0, 0, 0, 1), an existing one is not changed *)
Definition add_colpos (n : nat) (pos : option (list v4)) : list v4 := match pos with Some p => p | None => repeat (V4 0 0 0 1) n end.

(** [np.sort] and [np.argsort] *)
Fixpoint insert_by {A} (key : A -> R) (x : A) (l : list A) : list A :=
  match l with
  | [] => [x]
  | y :: l' => if Rleb (key x) (key y) then x :: l else y :: insert_by key x l'
  end.
Definition sort_by {A} (key : A -> R) (l : list A) : list A := fold_right (insert_by key) [] l.
Definition argsort (l : list R) : list nat := map snd (sort_by fst (combine l (seq 0 (length l)))).
(** [np.max], [np.min]; [None]: no elements *)
Definition fold1 (f : R -> R -> R) (l : list R) : option R := match l with [] => None | x :: l' => Some (fold_left f l' x) end.

(** marx.py:93-106, one photon; memory from ffi.new is filled with 0 *)
Definition row2c (rt : mrow * Z) : result cattr :=
  bind (h2e1 (m_pos (fst rt))) (fun x => bind (h2e1 (m_dir (fst rt))) (fun p =>
  Ok (CAttr (m_energy (fst rt)) x p (m_time (fst rt)) (snd rt) false false 0))).
(** marx.py:80-129: the table (with a column tag) and the structure *)
Definition table2c (t : mtable) : result (mtable * clist) :=
  let n := length (mt_rows t) in
  let tag := match mt_tag t with Some l => l | None => map Z.of_nat (seq 0 n) end in
  bind (collect (map row2c (combine (mt_rows t) tag))) (fun attr =>
  match fold1 Rmax (map m_time (mt_rows t)), fold1 Rmin (map m_time (mt_rows t)) with
  | Some tmax, Some tmin =>
      let en := map m_energy (mt_rows t) in
      Ok (MTable (mt_rows t) (Some tag), CList attr n n tmax tmin (argsort en) (sort_by (fun x => x) en) n)
  | _, _ => Err ValueError
  end).
(** marx.py:131-174: one row of the new table *)
Record orow := ORow { o_pos : v4; o_dir : v4; o_energy : R; o_time : R; o_tag : Z; o_unreflected : bool; o_vblocked : bool; o_shell : Z }.
Definition c2row (a : cattr) : orow := ORow (hom (ca_x a) 1) (hom (ca_p a) 0) (ca_energy a) (ca_time a) (ca_tag a) (ca_unreflected a) (ca_vblocked a) (ca_shell a).
Definition c2table (c : clist) : result (list orow) :=
  if Nat.leb (cl_num_sorted c) (length (cl_attr c)) then Ok (map c2row (firstn (cl_num_sorted c) (cl_attr c))) else Err IndexError.

(** base.py:304-314 [photonlocalcoords].  [f] gets the table in local coordinates; it leaves this table behind (first result) and returns this
    same table ([None]) or another one.  The result is the table of the caller after the call and the table that is returned. *)
Definition localcoords {T U} (to_local to_global : T -> T) (new_to_global : U -> U) (f : T -> result (T * option U)) (t : T) : result (T * option U) :=
  bind (f (to_local t)) (fun r => match r with
  | (behind, None) => Ok (to_global behind, None)
  | (behind, Some u) => Ok (behind, Some (new_to_global u))
  end).
Definition move_rows (m : m4) (t : mtable) : mtable :=
  MTable (map (fun r => MRow (app4 m (m_pos r)) (app4 m (m_dir r)) (m_energy r) (m_time r) (m_pol r)) (mt_rows t)) (mt_tag t).
Definition move_new (m : m4) (l : list orow) : list orow :=
  map (fun o => ORow (app4 m (o_pos o)) (app4 m (o_dir o)) (o_energy o) (o_time o) (o_tag o) (o_unreflected o) (o_vblocked o) (o_shell o)) l.
(** marx.py:176-183, the function inside of the decorator *)
Definition in_c (reflect : clist -> Z * clist) (t : mtable) : result (mtable * option (list orow)) :=
  bind (table2c t) (fun tc =>
  let (status, c) := reflect (snd tc) in
  if negb (Z.eqb status 0) then Err Exception else bind (c2table c) (fun new => Ok (fst tc, Some new))).
(** for a mirror at position [m]; [minv] is the result of np.linalg.inv *)
Definition process_photons_in_c (m minv : m4) (reflect : clist -> Z * clist) (t : mtable) : result (mtable * option (list orow)) :=
  localcoords (move_rows minv) (move_rows m) (move_new m) (in_c reflect) t.
(** marx.py:201-202 for one photon: its row in the table of the caller after the call, and its row in the new table *)
Definition mirror_pol (before : mrow) (after : orow) : option v4 := parallel_transport (m_dir before) (o_dir after) (m_pol before) None None.

(** ** Spec *)
(** a photon whose position is a point and whose direction is a vector *)
Definition proper_row (r : mrow) : Prop := w4 (m_pos r) = 1 /\ w4 (m_dir r) = 0.
(** the tags of a table: its column or numbers from 0 *)
Definition tags_of (t : mtable) : list Z := match mt_tag t with Some l => l | None => map Z.of_nat (seq 0 (length (mt_rows t))) end.
(** the photons that a list of indices stands for *)
Definition selected (c : clist) : list (option cattr) := map (nth_error (cl_attr c)) (firstn (cl_num_sorted c) (cl_index c)).
