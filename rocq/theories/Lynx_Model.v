(** Lynx, AXIS and Athena: models /repo/marxs/missions/lynx/mirror.py, lynx/lynx.py, AXIS/AXIS.py, athena/athecat.py, the keyword handling of
    design/rowland.py and simulator/simulator.py they rely on, and Cylinder.from_rowland of math/geometry.py. Tables are arguments. *)
From Verif Require Export Rmf_Model Container_Model Rot_Model Position_Model Cylinder_Model Placement_Model Aperture_Model Rowland_Model.
Open Scope R_scope.

(** ** mirror.py: MetaShellAperture *)
(** A row of the table of shells: serial number, inner and outer radius *)
Record shell := Shell { sh_serial : Z; sh_in : R; sh_out : R }.
(** A circular aperture: position, inner radius, number and column to write the number to *)
Record aper := Aper { ap_pos : m4; ap_in : R; ap_id : Z; ap_col : option string }.
(** mirror.py:16-20 *)
Definition shell_aper (focallength : R) (s : shell) : aper :=
  Aper (compose (V3 (focallength + 200) 0 0) id3 (V3 1 (sh_out s) (sh_out s))) (sh_in s) (sh_serial s) None.
(** optics/aperture.py:187-194 [MultiAperture.__init__]: number and column of the elements are replaced *)
Definition multi_init (id_col : string) (offset : Z) (elems : list aper) : list aper :=
  map (fun ie => Aper (ap_pos (snd ie)) (ap_in (snd ie)) (offset + Z.of_nat (fst ie))%Z (Some id_col)) (combine (seq 0 (length elems)) elems).
(** mirror.py:14-23; keyword [id_num_offset] is passed on, the default is 0 *)
Definition metashell_aperture (focallength : R) (table : list shell) (offset : Z) : list aper :=
  multi_init "shell"%string offset (map (shell_aper focallength) table).
(** mirror.py:24-34: inner and outer factor in [display] of the elements. If there is only one element, 0 is set in a dictionary that is then replaced. *)
Fixpoint outer_factors (table : list shell) : list R :=
  match table with
  | s :: ((t :: _) as r) => sh_in t / sh_out s :: outer_factors r
  | [s] => [3 / 2]
  | [] => []
  end.
Definition inner_factors (n : nat) : list R := match n with O => [] | S O => [1] | S m => 0 :: repeat 1 m end.
Definition display_factors (table : list shell) : result (list (R * R)) :=
  match table with [] => Err IndexError | _ => Ok (combine (inner_factors (length table)) (outer_factors table)) end.

(** ** mirror.py: MetaShellEfficiency *)
(** [eff]: the column of effective areas (square cm) for a serial number, [KeyError] if there is none *)
Definition shell_area (s : shell) : R := PI * (sh_out s * sh_out s - sh_in s * sh_in s).
(** mirror.py:60-63 *)
Definition relative_eff (eff : Z -> result (list R)) (table : list shell) : result (list (list R)) :=
  sequence (map (fun s => bind (eff (sh_serial s)) (fun col => Ok (map (fun a => a * 100 / shell_area s) col))) table).
(** mirror.py:64-65; [interp]: scipy's interp1d on the energies of the table, [ValueError] outside of them *)
Definition eff_shells (interp : list R -> R -> result R) (eff : Z -> result (list R)) (table : list shell) : result (list (Z * (R -> result R))) :=
  bind (relative_eff eff table) (fun rows =>
  sequence (map (fun s => bind (py_nth rows (sh_serial s - 1)) (fun row => Ok (sh_serial s, interp row))) table)).
Record mphoton := MPh { mp_shell : Z; mp_energy : R; mp_prob : R }.
(** mirror.py:67-74 *)
Definition eff_step (i : Z) (func : R -> result R) (ph : list mphoton) : result (list mphoton) :=
  sequence (map (fun p => if (mp_shell p =? i)%Z then bind (func (mp_energy p)) (fun q => Ok (MPh (mp_shell p) (mp_energy p) (mp_prob p * clip q 0 1))) else Ok p) ph).
Fixpoint efficiency (shells : list (Z * (R -> result R))) (ph : list mphoton) : result (list mphoton) :=
  match shells with
  | [] => Ok ph
  | (i, func) :: r => bind (eff_step i func ph) (fun ph' => efficiency r ph')
  end.
(** Spec: serial numbers count from 1 in the order of the rows *)
Definition serials_in_order (table : list shell) : Prop := forall k s, nth_error table k = Some s -> sh_serial s = Z.of_nat (S k).
(** Spec: shells do not overlap and are in the order from the inside to the outside *)
Definition nested (table : list shell) : Prop :=
  (forall k s, nth_error table k = Some s -> 0 < sh_in s < sh_out s) /\
  (forall k s t, nth_error table k = Some s -> nth_error table (S k) = Some t -> sh_out s < sh_in t).
(** lynx/data/metashellgeom.dat and AXIS/AXIS_metashellgeom.dat *)
Definition lynx_shells : list shell := map (fun k => Shell (Z.of_nat (S k)) (127 + 115 * INR k) (231 + 115 * INR k)) (seq 0 12).

(** ** Keywords *)
Definition pop_req (k : string) (kw : dict pyv) : result (pyv * dict pyv) := match dget k kw with Some v => Ok (v, ddel k kw) | None => Err KeyError end.
Definition pop_opt (k : string) (kw : dict pyv) : option pyv * dict pyv := (dget k kw, ddel k kw).
(** The object that is made. [to_pos4d] is the position of the structure as a whole. *)
Record on_torus := OnTorus { to_rowland : pyv; to_guess : option pyv; to_d_element : pyv; to_axis : option pyv; to_col : option pyv; to_normal : option pyv;
  to_parallel : option pyv; to_class : pyv; to_args : dict pyv; to_elem_pos : list m4; to_pos4d : m4 }.
(** rowland.py:586-604 [ElementsOnTorus], simulator.py:487-492 [ParallelCalculated], 309-350 [Parallel], 34-40 [BaseContainer], optics/base.py:81-92
    [OpticalElement], base/base.py:242-247 [SimulationSequenceElement], 78-88 [MarxsElement], in the order of the classes. [place]: calculates positions,
    see Rowland_Model. A [geometry] in the keywords is an object, not a class. [args]: the dictionary that keyword elem_args refers to.
    [Parallel.__init__] makes a geometry from the position keywords (removing them); [OpticalElement.__init__] makes a second one and
    replaces the first. Keywords for steps and numbers are removed, their values are not in the result. *)
Definition second_geometry (kw : dict pyv) : result (m4 * dict pyv) := parse_position kw.
Definition elements_on_torus (place : pyv -> option pyv -> pyv -> option pyv -> option pyv -> option pyv -> result (list m4)) (args : dict pyv) (kw : dict pyv) : result on_torus :=
  bind (pop_req "rowland"%string kw) (fun '(rowland, kw) =>
  let '(guess, kw) := pop_opt "guess_distance"%string kw in
  bind (pop_req "d_element"%string kw) (fun '(d_element, kw) =>
  let '(axis, kw) := pop_opt "optimize_axis"%string kw in
  let '(col, kw) := pop_opt "id_col"%string kw in
  let '(_, kw) := pop_opt "pos_spec"%string kw in
  let '(normal, kw) := pop_opt "normal_spec"%string kw in
  let '(parallel, kw) := pop_opt "parallel_spec"%string kw in
  bind (place rowland guess d_element axis normal parallel) (fun elem_pos =>
  let '(geometry, kw) := pop_opt "geometry"%string kw in
  bind (match geometry with None => bind (parse_position kw) (fun '(m, kw) => Ok kw) | Some _ => Ok kw end) (fun kw =>
  let '(_, kw) := pop_opt "id_num_offset"%string kw in
  bind (pop_req "elem_class"%string kw) (fun '(cls, kw) =>
  let '(ea, kw) := pop_opt "elem_args"%string kw in
  let '(_, kw) := pop_opt "elem_pos"%string kw in
  let '(_, kw) := pop_opt "preprocess_steps"%string kw in
  let '(_, kw) := pop_opt "postprocess_steps"%string kw in
  bind (second_geometry kw) (fun '(pos4d, kw) =>
  let '(_, kw) := pop_opt "id_num"%string kw in
  let '(_, kw) := pop_opt "name"%string kw in
  match kw with
  | [] => Ok (OnTorus rowland guess d_element axis col normal parallel cls (match ea with Some _ => args | None => [] end) elem_pos pos4d)
  | _ => Err ValueError
  end)))))).
(** rowland.py:721-723 [CircularMeshGrid]: the radius is used by [place] *)
Definition circular_mesh (place : pyv -> pyv -> option pyv -> pyv -> option pyv -> option pyv -> option pyv -> result (list m4)) (args kw : dict pyv) : result (pyv * on_torus) :=
  bind (pop_req "radius"%string kw) (fun '(radius, kw) => bind (elements_on_torus (place radius) args kw) (fun t => Ok (radius, t))).
(** rowland.py:677-681 [RectangularGrid] *)
Definition rectangular (place : pyv -> option pyv -> pyv -> option pyv -> pyv -> option pyv -> option pyv -> option pyv -> result (list m4)) (args kw : dict pyv) : result on_torus :=
  bind (pop_req "y_range"%string kw) (fun '(y_range, kw) => let '(z_range, kw) := pop_opt "z_range"%string kw in elements_on_torus (place y_range z_range) args kw).

(** ** lynx.py: LynxGAS *)
(** The entries of a configuration that belong to it alone, and the two dictionaries gas_kwargs and elem_args it shares with its copies *)
Record lconf := LConf { lc_rowland : pyv; lc_size : R * R; lc_frame : R; lc_shells : list shell; lc_blaze : m3 }.
Record lstore := LStore { ls_gas : dict pyv; ls_args : dict pyv }.
Definition list_min (l : list R) : result R := match l with [] => Err ValueError | x :: r => Ok (fold_left Rmin r x) end.
Definition list_max (l : list R) : result R := match l with [] => Err ValueError | x :: r => Ok (fold_left Rmax r x) end.
(** lynx.py:111-121 *)
Definition gas_update (c : lconf) (lo hi : R) (st : lstore) : lstore :=
  LStore (dset "radius"%string (Arr [lo; hi]) (dset "d_element"%string (Arr [fst (lc_size c) + 2 * lc_frame c; snd (lc_size c) + 2 * lc_frame c])
           (dset "rowland"%string (lc_rowland c) (ls_gas st))))
         (dset "orientation"%string (Mat3 (lc_blaze c)) (dset "zoom"%string (Arr [1; fst (lc_size c) / 2; snd (lc_size c) / 2]) (ls_args st))).
Definition lynx_gas place (c : lconf) (st : lstore) : result (pyv * on_torus) * lstore :=
  match list_min (map sh_in (lc_shells c)), list_max (map sh_out (lc_shells c)) with
  | Ok lo, Ok hi => let st' := gas_update c lo hi st in (circular_mesh place (ls_args st') (ls_gas st'), st')
  | _, _ => (Err ValueError, st)
  end.
(** lynx.py:126-131: color of the element with center (x, y, z) *)
Definition sector (y z : R) : Z := Rfloor (Rmod (atan2 y z) PI / PI * 3).
Definition colour (y z : R) : result string := py_nth ["r"; "g"; "b"]%string (sector y z).
(** athecat.py:142-149: color of the element with center (x, y, z); here z is the optical axis *)
Definition athena_colour (p : v3) : result string := colour (y3 p) (z3 p).
(** gas_kwargs of the three missions as in the files, and keywords of the detectors. Objects have numbers. *)
Definition lynx_gas_kwargs : dict pyv := [("parallel_spec", Arr [0; 1; 0; 0]); ("normal_spec", Arr [0; 0; 0; 1]); ("x_range", Arr [7000; 10000]); ("elem_class", Obj 1); ("elem_args", Obj 2)]%string.
Definition axis_gas_kwargs : dict pyv := [("parallel_spec", Arr [0; 1; 0; 0]); ("normal_spec", Arr [0; 0; 0; 1]); ("guess_distance", Num 9000); ("elem_class", Obj 1); ("elem_args", Obj 2)]%string.
Definition athena_gas_kwargs : dict pyv := [("parallel_spec", Arr [1; 0; 0; 0]); ("normal_spec", Arr [0; 0; 0; 1]); ("opt_range", Arr [8000; 12000]); ("optimize_axis", Obj 3);
  ("radius", Obj 4); ("elem_class", Obj 1); ("elem_args", Obj 2)]%string.
(** athecat.py:127-149: as [gas_update], without the radius *)
Definition athena_update (c : lconf) (st : lstore) : lstore :=
  LStore (dset "d_element"%string (Arr [fst (lc_size c) + 2 * lc_frame c; snd (lc_size c) + 2 * lc_frame c]) (dset "rowland"%string (lc_rowland c) (ls_gas st)))
         (dset "orientation"%string (Mat3 (lc_blaze c)) (dset "zoom"%string (Arr [1; fst (lc_size c) / 2; snd (lc_size c) / 2]) (ls_args st))).
Definition athena_gas place (c : lconf) (st : lstore) : result (pyv * on_torus) * lstore :=
  let st' := athena_update c st in (circular_mesh place (ls_args st') (ls_gas st'), st').
(** A call of an __init__ that takes keywords only, with [n] positional arguments *)
Definition keywords_only {A} (n : nat) (f : dict pyv -> result A) (kw : dict pyv) : result A := match n with O => f kw | S _ => Err TypeError end.
(** lynx.py:135-137, athecat.py:153-155: the torus is a positional argument; a second guess_distance would be a TypeError, too *)
Definition lynx_det place args (rowland : pyv) (det_kwargs : dict pyv) : result on_torus :=
  if din "guess_distance"%string det_kwargs then Err TypeError else keywords_only 1 (rectangular place args) (dset "guess_distance"%string (Num 25) det_kwargs).
(** AXIS.py:116-124; [y_offset]: y coordinate of the center of the torus *)
Definition axis_det place (args det_kwargs : dict pyv) (rowland : pyv) (y_offset : R) : result on_torus :=
  match dget "y_range"%string det_kwargs, dget "d_element"%string det_kwargs, dget "elem_args"%string det_kwargs, dget "elem_class"%string det_kwargs with
  | Some (Arr [a; b]), Some d, Some ea, Some cls =>
      keywords_only 0 (rectangular place args) [("rowland", rowland); ("y_range", Arr [a - y_offset; b - y_offset]); ("d_element", d); ("elem_args", ea); ("elem_class", cls);
                                                ("guess_distance", Num 25); ("id_col", Obj 5)]%string
  | Some (Arr [a; b]), _, _, _ => Err KeyError
  | Some _, _, _, _ => Err TypeError
  | None, _, _, _ => Err KeyError
  end.
Definition det_kwargs : dict pyv := [("y_range", Arr [400; 800]); ("d_element", Obj 6); ("elem_class", Obj 7); ("elem_args", Obj 8)]%string.
(** lynx.py:189-205, AXIS.py:194-211, athecat.py:204-222, the parts that depend on the configuration: gratings, then detectors *)
Definition perfect_lynx placeg placed c st args : result (on_torus * on_torus) :=
  bind (fst (lynx_gas placeg c st)) (fun g => bind (lynx_det placed args (lc_rowland c) det_kwargs) (fun d => Ok (snd g, d))).
Definition perfect_axis placeg placed c st args y_offset : result (on_torus * on_torus) :=
  bind (fst (lynx_gas placeg c st)) (fun g => bind (axis_det placed args det_kwargs (lc_rowland c) y_offset) (fun d => Ok (snd g, d))).
Definition perfect_athecat placeg placed c st args : result (on_torus * on_torus) :=
  bind (fst (athena_gas placeg c st)) (fun g => bind (lynx_det placed args (lc_rowland c) det_kwargs) (fun d => Ok (snd g, d))).
(** Spec: the keywords a structure on a torus understands, and those it needs *)
Definition torus_keys : list string := ["rowland"; "guess_distance"; "d_element"; "optimize_axis"; "id_col"; "pos_spec"; "normal_spec"; "parallel_spec"; "geometry"; "id_num_offset";
  "elem_class"; "elem_args"; "elem_pos"; "preprocess_steps"; "postprocess_steps"; "id_num"; "name"; "pos4d"; "position"; "orientation"; "zoom"]%string.
Definition torus_needs : list string := ["rowland"; "d_element"; "elem_class"]%string.

(** ** Chirp and alignment *)
(** mitsnl/catgrating.py:358-363: the parts of a stack; class and base classes. The numbers of parts do not matter. *)
Definition flat_mro : list string := ["FlatOpticalElement"; "OpticalElement"; "SimulationSequenceElement"; "MarxsElement"; "object"]%string.
Definition stack_tree (i : nat) : tree :=
  Tree i ["CATL1L2Stack"; "FlatStack"; "FlatOpticalElement"; "OpticalElement"; "BaseContainer"; "SimulationSequenceElement"; "MarxsElement"; "object"]%string true
    [Tree i ("NonParallelCATGrating" :: "CATGrating" :: "FlatGrating" :: flat_mro)%string false []; Tree i ("QualityFactor" :: flat_mro)%string false [];
     Tree i ("L1" :: "CATGrating" :: "FlatGrating" :: flat_mro)%string false []; Tree i ("L2Abs" :: flat_mro)%string false [];
     Tree i ("L2Diffraction" :: "RandomGaussianScatter" :: flat_mro)%string false []].
Definition gas_tree (n : nat) : tree :=
  Tree 0 ["LynxGAS"; "CircularMeshGrid"; "ElementsOnTorus"; "ParallelCalculated"; "Parallel"; "BaseContainer"; "OpticalElement"; "SimulationSequenceElement"; "MarxsElement"; "object"]%string true
    (map stack_tree (seq 0 n)).
Definition mission_tree (before after : list tree) (n : nat) : tree :=
  Tree 0 ["PerfectLynx"; "Sequence"; "BaseContainer"; "SimulationSequenceElement"; "MarxsElement"; "object"]%string true (before ++ gas_tree n :: after).
(** lynx.py:189-205, athecat.py:204-222, AXIS.py:194-211: the gratings to chirp *)
Definition chirp_list_lynx (t : tree) : list tree := elements_of_class t "CATGrating"%string false false.
Definition chirp_list_axis (t : tree) : list tree := elements_of_class t "NonParallelCATGrating"%string false false.
(** What a grating in a structure has besides its position: the spline of a chirp and the color *)
Record extra := Extra { ex_chirp : option nat; ex_color : option string }.
(** simulator.py:361-440: [generate_elements] makes new objects *)
Definition regenerate (l : list extra) : list extra := map (fun _ => Extra None None) l.
(** lynx.py:220-227: one row of the budget on the structure it names: translation and rotation, and the new objects *)
Inductive kind := Global | Individual | Other.
Definition align_row (k : kind) (tol : v3 * v3) (draws : nat -> v3 * v3) (s : pstate * list extra) : result (pstate * list extra) :=
  match k with
  | Global => bind (tol_apply (fst s) (MoveGlobal (fst tol) (snd tol))) (fun p => Ok (p, regenerate (snd s)))
  | Individual => bind (tol_apply (fst s) (Wiggle draws)) (fun p => Ok (p, regenerate (snd s)))
  | Other => Err NotImplementedError
  end.
Fixpoint align (rows : list (kind * (v3 * v3) * (nat -> v3 * v3))) (s : pstate * list extra) : result (pstate * list extra) :=
  match rows with
  | [] => Ok s
  | (k, t, d) :: r => bind (align_row k t d s) (fun s' => align r s')
  end.
(** lynx.py:230-259 [reformat_errorbudget]: kind, values as given, values to use; [draws] for globalfac None *)
Record brow := BRow { br_kind : kind; br_in : list R; br_out : option (list R) }.
Definition reformat_row (globalfac : option R) (draws : list R) (b : brow) : brow :=
  BRow (br_kind b) (br_in b) (Some (match br_kind b, globalfac with
                                    | Global, Some f => map (fun x => x * f) (br_in b)
                                    | Global, None => map (fun xd => fst xd * snd xd) (combine (br_in b) draws)
                                    | _, _ => br_in b
                                    end)).
(** The default configurations: copies made before the budget is entered do not have it (lynx.py:98-106, 276) *)
Definition copy_then_set {V} (k : string) (v : V) (c : dict V) : dict V * dict V := (c, dset k v c).
Definition default_confs {V} (budget : V) (c : dict V) : dict V * dict V := copy_then_set "alignmentbudget"%string budget c.

(** ** geometry.py:430-463 Cylinder.from_rowland *)
Definition from_rowland (t : torus) (width rotation : R) : option m4 :=
  match axangle2mat (V3 0 0 1) rotation with
  | Some rot => Some (mul4 (tpos t) (compose (V3 (tR t) 0 0) rot (V3 (tr t) (tr t) width)))
  | None => None
  end.
