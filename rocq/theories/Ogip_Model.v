(** Headers of OGIP files: models /repo/marxs/reduction/ogip.py:83-182 (checks, ARF, PHAI), 227-249 (RMF), 270-316 (RMF.write) and
    469-525 (RMF.from_Gauss_sigma). Of the columns only type and number of dimensions are kept. A method that changes a
    table and may fail returns the table as it is afterwards together with the result. astropy's reading and writing are arguments.
    Tables are ColOrKeyTables; for a plain table the only difference is a column name that is also a keyword. *)
From Coq Require Import DecimalString.
From Verif Require Export Base Vec_Model Meta_Model Rmf_Model Lsf_Model.
Open Scope R_scope.

(** ** Tables *)
Inductive dtype := Float64 | Float32 | Int64 | Int32 | Int16 | Str | Object.
(** a keyword: a number or string of python, which has no type in the sense of numpy, or a number or array of numpy *)
Inductive mval := MStr (s : string) | MInt (z : Z) | MNp (d : dtype) (ndim : nat).
Record table := Tab { t_meta : dict mval; t_cols : dict (dtype * nat); t_len : nat }.
Definition set_meta (k : string) (v : mval) (t : table) : table := Tab (dset k v (t_meta t)) (t_cols t) (t_len t).
Definition upd_meta (l : dict mval) (t : table) : table := Tab (dupdate (t_meta t) l) (t_cols t) (t_len t).
(** ogip.py:62-68: the dtype (if there is one) and the number of dimensions of [tab[col]] *)
Definition tab_item (t : table) (col : string) : result (option dtype * nat) :=
  match dget col (t_meta t) with
  | Some (MNp d n) => Ok (Some d, n)
  | Some _ => Ok (None, 0%nat)
  | None => match dget col (t_cols t) with Some (d, n) => Ok (Some d, n) | None => Err KeyError end
  end.

(** ** Checks *)
(** ogip.py:83-87 [_check_mandatory_keywords] *)
Definition check_keywords (t : table) (extra : list string) : result unit :=
  if forallb (fun k => inb k (dkeys (t_meta t))) (["TELESCOP"; "INSTRUME"; "FILTER"]%string ++ extra) then Ok tt else Err OGIPFormatError.
(** [np.can_cast(_, _, 'unsafe')]: everything can be cast *)
Definition can_cast_unsafe (from to : dtype) : bool := true.
Definition req : Type := string * list dtype * option nat.
(** ogip.py:91-102: the body of the loop of [_check_col_and_type]; a python number has no [dtype] and no [ndim] *)
Definition check_col (t : table) (r : req) : result unit :=
  let '(col, dts, ndim) := r in
  if negb (inb col (dkeys (t_cols t)) || inb col (dkeys (t_meta t)))%bool then Err OGIPFormatError else
  bind (match dts with
        | [] => Ok false
        | _ => bind (tab_item t col) (fun i => match fst i with None => Err AttributeError | Some d => Ok (existsb (can_cast_unsafe d) dts) end)
        end) (fun cancast =>
  if negb cancast then Err OGIPFormatError else
  match ndim with
  | None => Ok tt
  | Some n =>
      if (Nat.eqb n 1 && inb col (dkeys (t_meta t)))%bool then Ok tt else
      bind (tab_item t col) (fun i => match fst i with None => Err AttributeError | Some _ => if Nat.eqb (snd i) n then Ok tt else Err OGIPFormatError end)
  end).
Fixpoint check_cols (t : table) (l : list req) : result unit :=
  match l with [] => Ok tt | r :: rest => bind (check_col t r) (fun _ => check_cols t rest) end.

(** ** ARF *)
(** ogip.py:106-108 *)
Definition arf_cols : list req := [("ENERG_LO", [Float64], Some 1%nat); ("ENERG_HI", [Float64], Some 1%nat); ("SPECRESP", [Float64], Some 1%nat)]%string.
(** ogip.py:111-116 *)
Definition arf_header : dict mval :=
  [("EXTNAME", MStr "SPECRESP"); ("HDUCLASS", MStr "OGIP"); ("HDUVERS", MStr "1.1.0"); ("HDUCLAS1", MStr "RESPONSE"); ("HDUCLAS2", MStr "SPECRESP")]%string.
(** ogip.py:110-118 [ARF.write]; [kw]: names of the keyword arguments. Result: the table afterwards, and what is given to astropy for writing.
    A keyword argument that is passed twice is a TypeError. *)
Definition ARF_write (kw : list string) (t : table) : table * result table :=
  let t' := upd_meta arf_header t in
  (t', bind (check_keywords t' []) (fun _ => if inb "format" kw then Err TypeError else Ok t')).
(** ogip.py:120-124 [ARF.read]; [file]: what astropy reads *)
Definition ARF_read (kw : list string) (file : result table) : result table :=
  if inb "format" kw then Err TypeError else bind file (fun t => bind (check_cols t arf_cols) (fun _ => Ok t)).

(** header keywords in a file are numbers and strings: after reading they are python objects (the value of numbers is not kept here) *)
Definition header_value (v : mval) : mval := match v with MNp _ _ => MInt 0 | _ => v end.
Definition from_file (t : table) : table := Tab (map (fun kv => (fst kv, header_value (snd kv))) (t_meta t)) (t_cols t) (t_len t).

(** ** PHAI *)
(** ogip.py:146-151; [np.integer] as a type is int64 *)
Definition phai_cols : list req :=
  [("CHANNEL", [Int32], Some 1%nat); ("ENERG_HI", [Float64], Some 1%nat); ("N_GRP", [Int32], Some 1%nat);
   ("F_CHAN", [Int64; Object], None); ("N_CHAN", [Int64; Object], None); ("MATRIX", [Float64; Object], None)]%string.
(** ogip.py:154-161 [PHAI.__init__]: [super().__init__(self, pha)] makes a table from the table itself, which has no columns yet, and [pha] is taken as
    the argument [masked] ([masked_ok]: astropy accepts it as such) *)
Definition PHAI_init (masked_ok : bool) (pha : table) (chantype hduclas2 : option string) : result table :=
  if masked_ok then
    let t := Tab [] [] 0 in
    let t := match chantype with Some c => set_meta "CHANTYPE" (MStr c) t | None => t end in
    Ok (match hduclas2 with Some c => set_meta "HDUCLAS2" (MStr c) t | None => t end)
  else Err ValueError.
(** ogip.py:164-171 *)
Definition phai_header (t : table) : dict mval :=
  [("EXTNAME", MStr "SPECTRUM"); ("HDUCLASS", MStr "OGIP"); ("HDUVERS", MStr "1.2.1"); ("HDUCLAS1", MStr "SPECTRUM"); ("HDUCLAS2", MStr "SPECRESP");
   ("HDUCLAS3", MStr (if inb "COUNTS" (dkeys (t_cols t)) then "COUNT" else "RATE")); ("HDUCLAS4", MStr "TYPE:I")]%string.
Definition phai_colkeys : list string := ["BACKSCAL"; "AREASCAL"; "QUALITY"; "GROUPING"; "SYS_ERR"]%string.
(** ogip.py:163-176 [PHAI.write]; [super().write] is [ARF.write] with the keyword argument [format] *)
Definition PHAI_write (kw : list string) (t : table) : table * result table :=
  let t' := upd_meta (phai_header t) t in
  match check_keywords t' ["EXPOSURE"; "POISSERR"]%string with
  | Err e => (t', Err e)
  | Ok _ =>
      if forallb (fun n => inb n (dkeys (t_cols t')) || inb n (dkeys (t_meta t')))%bool phai_colkeys then
        if inb "format" kw then (t', Err TypeError) else ARF_write (kw ++ ["format"%string]) t'
      else (t', Err OGIPFormatError)
  end.
(** ogip.py:178-182 [PHAI.read] *)
Definition PHAI_read (kw : list string) (file : result table) : result table :=
  bind (if inb "format" kw then Err TypeError else ARF_read ("format"%string :: kw) file) (fun t => bind (check_cols t phai_cols) (fun _ => Ok t)).

(** ** RMF *)
(** ogip.py:217-225 *)
Definition matrix_cols : list req :=
  [("ENERG_LO", [Float64], Some 1%nat); ("ENERG_HI", [Float64], Some 1%nat); ("N_GRP", [Int32], Some 1%nat);
   ("F_CHAN", [Int32; Object], None); ("N_CHAN", [Int32; Object], None); ("MATRIX", [Float64; Object], None)]%string.
Definition ebounds_cols : list req := [("CHANNEL", [Int32], Some 1%nat); ("E_MIN", [Float64], Some 1%nat); ("E_MAX", [Float64], Some 1%nat)]%string.
(** ogip.py:230-235 for one of the tables *)
Definition init_meta (chantype hduclas3 : option string) (t : table) : table :=
  let t := set_meta "DETCHANS" (MInt (Z.of_nat (t_len t))) t in
  let t := match chantype with Some c => set_meta "CHANTYPE" (MStr c) t | None => t end in
  match hduclas3 with Some c => set_meta "HDUCLAS3" (MStr c) t | None => t end.
(** ogip.py:227-239 [RMF.__init__] for two different tables *)
Definition RMF_init (matrix ebounds : table) (chantype hduclas3 : option string) : result (table * table) :=
  let m := init_meta chantype hduclas3 matrix in
  let e := init_meta chantype hduclas3 ebounds in
  bind (check_cols m matrix_cols) (fun _ => bind (check_cols e ebounds_cols) (fun _ =>
  bind (check_keywords m ["CHANTYPE"%string]) (fun _ => bind (check_keywords e ["CHANTYPE"%string]) (fun _ => Ok (m, e))))).
(** ogip.py:241-249 [RMF.read] *)
Definition RMF_read (matrix ebounds : result table) : result (table * table) :=
  bind matrix (fun m => bind ebounds (fun e =>
  bind (check_cols m matrix_cols) (fun _ => bind (check_cols e ebounds_cols) (fun _ =>
  bind (check_keywords m ["CHANTYPE"; "DETCHANS"]%string) (fun _ => bind (check_keywords e ["CHANTYPE"; "DETCHANS"]%string) (fun _ =>
  RMF_init m e None None)))))).
(** [l.index(x)] *)
Fixpoint index (x : string) (l : list string) : result nat :=
  match l with [] => Err ValueError | y :: r => if String.eqb x y then Ok 0%nat else bind (index x r) (fun i => Ok (S i)) end.
Definition str_nat (n : nat) : string := NilEmpty.string_of_uint (Nat.to_uint n).
Definition tlmin_key (i : nat) : string := String.append "TLMIN" (str_nat (i + 1)).
(** ogip.py:289-293, 299-303 *)
Definition matrix_header : dict mval :=
  [("EXTNAME", MStr "MATRIX"); ("HDUCLASS", MStr "OGIP"); ("HDUVERS", MStr "1.1.0"); ("HDUCLAS1", MStr "RESPONSE"); ("HDUCLAS2", MStr "RSP_MATRIX")]%string.
Definition ebounds_header : dict mval :=
  [("EXTNAME", MStr "EBOUNDS"); ("HDUCLASS", MStr "OGIP"); ("HDUCLAS1", MStr "RESPONSE"); ("HDUCLAS2", MStr "EBOUNDS"); ("HDUVERS", MStr "1.2.0")]%string.
(** ogip.py:270-316 [RMF.write]: the two tables that are written. [fix]: [variable_length_to_fixed_length] (C53) *)
Definition RMF_write (fix_len : table -> result table) (m e : table) (tlmin : option Z) : result (table * table) :=
  bind (check_cols m matrix_cols) (fun _ => bind (check_cols e ebounds_cols) (fun _ =>
  bind (index "F_CHAN" (dkeys (t_cols m))) (fun im => bind (index "CHANNEL" (dkeys (t_cols e))) (fun ie =>
  let m := match tlmin with Some z => set_meta (tlmin_key im) (MInt z) m | None => m end in
  let e := match tlmin with Some z => set_meta (tlmin_key ie) (MInt z) e | None => e end in
  bind (check_keywords m ["CHANTYPE"%string; "DETCHANS"%string; tlmin_key im]) (fun _ => bind (check_keywords e ["CHANTYPE"%string; "DETCHANS"%string; tlmin_key ie]) (fun _ =>
  let m := upd_meta matrix_header m in
  let e := upd_meta ebounds_header e in
  bind (tab_item m "MATRIX") (fun i =>
  match fst i with
  | None => Err AttributeError
  | Some Object => bind (fix_len m) (fun m' => Ok (m', e))
  | Some _ => Ok (m, e)
  end))))))).

(** ** Gaussian response *)
(** the table of widths: wavelength and sigma in Angstrom, or energy and sigma in keV (a table with both counts as the first) *)
Inductive sigmatab := InWave (rows : list (R * R)) | InEnergy (rows : list (R * R)).
(** [sigmatab.sort('wave')] *)
Fixpoint ins_wave (x : R * R) (l : list (R * R)) : list (R * R) := match l with [] => [x] | y :: r => if Rleb (fst x) (fst y) then x :: l else y :: ins_wave x r end.
Definition sort_wave (l : list (R * R)) : list (R * R) := fold_right ins_wave [] l.
(** ogip.py:504-517: the LSFPARM table *)
Definition gauss_row (meta : dict string) (s : list (R * R)) : lsfrow :=
  Row 1 [1] (map fst s) [("EE_FRACS", Frac [repeat 1 (List.length s)]); ("GAUSS1_PARMS", Parms [map (fun p => (1, snd p, fst p)) s])]%string meta.
(** the wavelengths at which the parameters are needed (lsfparm.py:342-346) *)
Definition midwaves (hc : R) (edges : list R) : list R :=
  let '(_, e_min, e_max) := ebounds_from_edges (fun w => hc / w) edges in map (fun p => 1 / 2 * (hc / snd p + hc / fst p)) (combine e_min e_max).
(** scipy's cubic interp1d: at least four different nodes, and no values outside *)
Fixpoint no_double (l : list R) : bool := match l with [] => true | x :: r => (forallb (fun y => negb (Reqb x y)) r && no_double r)%bool end.
Definition in_nodes (nodes : list R) (x : R) : bool := (existsb (fun n => Rleb n x) nodes && existsb (fun n => Rleb x n) nodes)%bool.
Definition cubic_ok (nodes xs : list R) : bool := (Nat.leb 4 (List.length nodes) && no_double nodes && forallb (in_nodes nodes) xs)%bool.
(** ogip.py:468-522 [from_Gauss_sigma] with [bin_edges] in Angstrom, [v]: version of marxs, [date]: the clock. The conversion of energies to
    wavelengths has a misspelled argument. Last line: the check of keywords in RMF.__init__. *)
Definition strip (m : dict Meta_Model.hval) : dict string := map (fun kv => (fst kv, fst (snd kv))) m.
Definition from_Gauss_sigma (i1 : interp1) (i2 : interp2) (F : profile) (hc : R) (v : version) (date : string)
    (edges : list R) (tab : sigmatab) (threshold : R) (headerkw : dict Meta_Model.hval) : result rmffile :=
  match tab with
  | InEnergy _ => Err TypeError
  | InWave rows =>
      let s := sort_wave rows in
      let meta := strip (tag_call date (tag_init v None None headerkw) [] []) in
      if cubic_ok (map fst s) (midwaves hc edges) then
        bind (make_rmf i1 i2 F hc (gauss_row meta s) edges (Lsf_Model.Q 1 1) threshold) (fun f =>
        if (forallb (fun k => din k (f_matrix_meta f)) ["TELESCOP"; "INSTRUME"; "FILTER"] && forallb (fun k => din k (f_ebounds_meta f)) ["TELESCOP"; "INSTRUME"; "FILTER"])%bool%string
        then Ok f else Err OGIPFormatError)
      else Err ValueError
  end.
(** the default header *)
Definition default_headerkw : dict Meta_Model.hval := map (fun k => (k, ("unknown", "")))%string ["SATELLIT"; "TELESCOP"; "INSTRUME"; "FILTER"]%string.

(** ** Spec *)
(** Spec: a required column is there, as column or keyword, with a numpy type and the right number of dimensions (any for a keyword where one dimension is asked for) *)
Definition has_item (t : table) (r : req) : Prop := let '(col, _, ndim) := r in exists d n, tab_item t col = Ok (Some d, n) /\
  match ndim with None => True | Some k => n = k \/ k = 1%nat /\ In col (map fst (t_meta t)) end.
(** Spec: between the nodes, interpolation gives constants and straight lines *)
Definition reproduces_lines (i1 : interp1) : Prop := forall xs a b x, (2 <= List.length xs)%nat -> NoDup xs -> in_nodes xs x = true -> i1 xs (map (fun t => a + b * t) xs) x = a + b * x.
(** Spec: probability of a normalised Gaussian for the channel with wavelengths [lo] to [hi] *)
Definition gauss_bin (F : profile) (sigma wave lo hi : R) : R := F NormGauss1D (sigma * (2 * sqrt (2 * ln 2))) wave hi - F NormGauss1D (sigma * (2 * sqrt (2 * ln 2))) wave lo.
