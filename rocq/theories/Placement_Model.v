(** Placement of elements in containers: models Parallel and ParallelCalculated (/repo/marxs/simulator/simulator.py:321-541),
    the moves of /repo/marxs/design/tolerancing.py:44-132 and /repo/marxs/design/uncertainties.py. *)
From Verif Require Export Coords_Model Rot_Model Position_Model.
Open Scope R_scope.

(** A Parallel object. [p_name i] is the default name 'Elem i in ...' made for element i. *)
Record parallel := Par {
  p_pos4d : m4; p_unc : m4; p_elem_pos : list m4; p_elem_unc : list m4;
  p_args : dict pyv; p_offset : Z; p_name : nat -> pyv }.
(** An element that was generated: its pos4d ([None]: contains nan), id_num and other keywords *)
Record elem := Elem { e_pos : option m4; e_id : Z; e_args : dict pyv }.

(** simulator.py:403-410 *)
Definition specific_arg (n i : nat) (v : pyv) : pyv :=
  match v with
  | Lst l => if Nat.eqb (length l) n then nth i l (Obj 0) else v
  | _ => v
  end.
Definition specific_args (p : parallel) (i : nat) : dict pyv :=
  let d := map (fun kv => (fst kv, specific_arg (length (p_elem_pos p)) i (snd kv))) (p_args p) in
  if din "name"%string d then d else dset "name"%string (p_name p i) d.
(** [np.allclose(s, 0.)] *)
Definition noshear (s : v3) : bool := isclose (x3 s) 0 && isclose (y3 s) 0 && isclose (z3 s) 0.
(** simulator.py:423-437: the product of the matrices, from the last to the first *)
Definition product (l : list m4) : m4 := fold_left (fun f m => mul4 m f) (rev l) id4.
(** simulator.py:399-440 for element [i]. If a decomposition divides by zero, the result contains nan: [e_pos = None] (depending
    on where the nan is, the code instead raises one of the shear exceptions). *)
Definition generate_element (p : parallel) (i : nat) : result elem :=
  bind (parse_position (specific_args p i)) (fun er =>
  let (elem_pos4d, rest) := er in
  let nan_elem := Ok (Elem None (p_offset p + Z.of_nat i)%Z rest) in
  match decompose44 elem_pos4d with
  | None => nan_elem
  | Some (telem, relem, zelem, Selem) =>
      if negb (noshear Selem) then Err ValueError else
      match nth_error (p_elem_pos p) i, nth_error (p_elem_unc p) i with
      | Some ep, Some eu =>
          match decompose44 ep, decompose44 eu with
          | Some (e_center, e_rot, e_zoom, _), Some (tsig, rsig, zsig, ssig) =>
              if negb (noshear ssig) then Err SimulationSetupError else
              Ok (Elem (Some (product [p_pos4d p; p_unc p; translation2aff tsig; translation2aff e_center; translation2aff telem;
                                       mat2aff rsig; mat2aff e_rot; mat2aff relem; zoom2aff zsig; zoom2aff e_zoom; zoom2aff zelem]))
                       (p_offset p + Z.of_nat i)%Z rest)
          | _, _ => nan_elem
          end
      | _, _ => Err IndexError
      end
  end).
Fixpoint collect {A} (l : list (result A)) : result (list A) :=
  match l with
  | [] => Ok []
  | r :: l' => bind r (fun a => bind (collect l') (fun rest => Ok (a :: rest)))
  end.
(** simulator.py:384-440 [generate_elements] *)
Definition generate_elements (p : parallel) : result (list elem) :=
  collect (map (generate_element p) (seq 0 (length (p_elem_pos p)))).
(** simulator.py:321-359: the state right after construction (dictionaries of element positions are turned into matrices by
    [parse_position], see C18) *)
Definition new_parallel (pos4d : m4) (elem_pos : list m4) (args : dict pyv) (offset : Z) (name : nat -> pyv) : parallel :=
  Par pos4d id4 elem_pos (repeat id4 (length elem_pos)) args offset name.

(** simulator.py:361-382 [move_center]; [cinv] is the result of np.linalg.inv *)
Definition move_center (change cinv : m4) (p : parallel) : parallel :=
  Par (mul4 change (p_pos4d p)) (p_unc p) (map (mul4 cinv) (p_elem_pos p)) (p_elem_unc p) (p_args p) (p_offset p) (p_name p).

(** ** tolerancing.py *)

(** transforms3d euler2mat(a, b, c, 'sxyz'): rotations around the fixed axes x, then y, then z *)
Definition euler2mat (a : v3) : m3 :=
  mul3 (axangle2mat_n (V3 0 0 1) (z3 a)) (mul3 (axangle2mat_n (V3 0 1 0) (y3 a)) (axangle2mat_n (V3 1 0 0) (x3 a))).
Definition ones3 : v3 := V3 1 1 1.
Definition move6 (t a : v3) : m4 := compose t (euler2mat a) ones3.
(** The draws of uncertainties.py:36-39 for element i are arguments. *)
Inductive tol_op :=
| Wiggle (draws : nat -> v3 * v3)
| MoveGlobal (t a : v3)
| MoveIndividual (t a : v3).
(** container and its current elements *)
Record pstate := PState { ps_par : parallel; ps_elems : list elem }.
Definition set_unc (p : parallel) u := Par (p_pos4d p) u (p_elem_pos p) (p_elem_unc p) (p_args p) (p_offset p) (p_name p).
Definition set_elem_unc (p : parallel) us := Par (p_pos4d p) (p_unc p) (p_elem_pos p) us (p_args p) (p_offset p) (p_name p).
(** tolerancing.py:44-103 *)
Definition tol_set (s : pstate) (op : tol_op) : parallel :=
  let n := length (ps_elems s) in
  match op with
  | Wiggle d => set_elem_unc (ps_par s) (map (fun i => move6 (fst (d i)) (snd (d i))) (seq 0 n))
  | MoveGlobal t a => set_unc (ps_par s) (move6 t a)
  | MoveIndividual t a => set_elem_unc (ps_par s) (repeat (move6 t a) n)
  end.
Definition tol_apply (s : pstate) (op : tol_op) : result pstate :=
  let p := tol_set s op in bind (generate_elements p) (fun es => Ok (PState p es)).
Fixpoint tol_run (s : pstate) (ops : list tol_op) : result pstate :=
  match ops with
  | [] => Ok s
  | op :: ops' => bind (tol_apply s op) (fun s' => tol_run s' ops')
  end.
(** Spec: the most recent setting of each kind *)
Fixpoint last_global (ops : list tol_op) (u : m4) : m4 :=
  match ops with
  | [] => u
  | MoveGlobal t a :: ops' => last_global ops' (move6 t a)
  | _ :: ops' => last_global ops' u
  end.
Fixpoint last_individual (n : nat) (ops : list tol_op) (us : list m4) : list m4 :=
  match ops with
  | [] => us
  | MoveIndividual t a :: ops' => last_individual n ops' (repeat (move6 t a) n)
  | Wiggle d :: ops' => last_individual n ops' (map (fun i => move6 (fst (d i)) (snd (d i))) (seq 0 n))
  | _ :: ops' => last_individual n ops' us
  end.

(** tolerancing.py:106-132 [moveelem]: a geometry with pos4d and, after the first move, pos4d_orig *)
Record geom := Geom { g_pos4d : m4; g_orig : option m4 }.
Definition moveelem (g : geom) (ta : v3 * v3) : geom :=
  let orig := match g_orig g with Some o => o | None => g_pos4d g end in
  Geom (mul4 (move6 (fst ta) (snd ta)) orig) (Some orig).

(** ** ParallelCalculated *)

(** simulator.py:528-541 [get_spec] for a spec that is not a callable *)
Definition get_spec (spec : v4) (xyzw : list v4) : result (list v4) :=
  if Reqb (w4 spec) 0 then Ok (map (fun _ => spec) xyzw)
  else bind (h2e xyzw) (fun e => bind (h2e [spec]) (fun s => e2h (map (fun v => sub3 v (nth 0 s zero3)) e) 1)).
(** simulator.py:494-520 [calculate_elempos]; [None]: nan *)
Definition h2e1 (v : v4) : result v3 := bind (h2e [v]) (fun l => Ok (nth 0 l zero3)).
Definition elempos1 (xyzw normal par : v4) : result (option m4) :=
  bind (h2e1 normal) (fun nrm => bind (h2e1 par) (fun pl =>
  bind (ex2vec_fix nrm pl) (fun rot => bind (h2e1 xyzw) (fun x =>
  Ok (match rot with Some r => Some (compose x r ones3) | None => None end))))).
Definition calculate_elempos (normal_spec parallel_spec : v4) (xyzw : list v4) : result (list (option m4)) :=
  bind (get_spec normal_spec xyzw) (fun normals =>
  bind (get_spec parallel_spec xyzw) (fun parallels =>
  collect (map (fun npx => elempos1 (fst npx) (fst (snd npx)) (snd (snd npx))) (combine xyzw (combine normals parallels))))).

(** Spec: elements whose axes are perpendicular *)
Definition shear_free (m : m4) : Prop :=
  affine m /\ xyz (b0 m) <> zero3 /\ xyz (b1 m) <> zero3 /\ xyz (b2 m) <> zero3 /\
  dot3 (xyz (b0 m)) (xyz (b1 m)) = 0 /\ dot3 (xyz (b0 m)) (xyz (b2 m)) = 0 /\ dot3 (xyz (b1 m)) (xyz (b2 m)) = 0.
(** Spec: no position keywords in the arguments *)
Definition no_position (d : dict pyv) : Prop :=
  dget "pos4d"%string d = None /\ dget "position"%string d = None /\ dget "orientation"%string d = None /\ dget "zoom"%string d = None.
