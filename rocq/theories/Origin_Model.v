(** Making sources and pointings, and the header they write: models /repo/marxs/source/basesources.py:156-163, 252-279, 293-302, 325-329, 341-342, 369-372, 409-413, 443-448, 463-465, 502-504 (__init__ of the sources, header of
    generate_photons, set_pos), /repo/marxs/source/labSource.py:33-37, 54-56, 82-92 and 131-133, /repo/marxs/source/pointing.py:30-41, 86-92, 147-173, 192-194, /repo/marxs/missions/chandra/dither.py:27-31. Values of keywords are of any
    type, [None] is python's None; the conversion of coordinates by astropy, [isscalar], [len], [abs] and the geometry of an element are arguments. Columns are names with units; numbers in the columns are in Source_Model. *)
From Verif Require Export Base.
From Coq Require Import Reals.
Open Scope string_scope.
Open Scope list_scope.

Section Keywords.
Context {V : Type}.
Definition keywords := dict (option V).
(** the default values in the code (with units): [d_one] is the number 1 without unit *)
Record defaults := Defaults {
  d_energy : V; d_flux : V; d_area : V; d_one : V; d_labflux : V; d_angle : V; d_size : V; d_origin : V; d_opening : V; d_axis : V;
  d_roll : V; d_eye : V; d_amp : V; d_period : V; d_phase : V }.

(** [kwargs.pop(k, d)] *)
Definition pop (k : string) (d : option V) (kw : keywords) : option V * keywords :=
  (match dget k kw with Some v => v | None => d end, ddel k kw).
(** [kwargs.pop(k)] *)
Definition pop_or_fail (k : string) (kw : keywords) : result (option V * keywords) :=
  match dget k kw with Some v => Ok (v, ddel k kw) | None => Err KeyError end.

(** base/base.py:242-247 and 78-88 SimulationSequenceElement and MarxsElement *)
Definition element_init (kw : keywords) : result unit :=
  match ddel "name" (ddel "id_col" (ddel "id_num" kw)) with [] => Ok tt | _ :: _ => Err ValueError end.

Record source := Source { s_energy : option V; s_flux : option V; s_polarization : option V; s_area : option V }.
(** basesources.py:156-163; [next]: the constructor of the next class *)
Definition source_init {A} (D : defaults) (next : keywords -> result A) (kw : keywords) : result (source * A) :=
  let (e, kw) := pop "energy" (Some (d_energy D)) kw in
  let (f, kw) := pop "flux" (Some (d_flux D)) kw in
  let (p, kw) := pop "polarization" None kw in
  let (g, kw) := pop "geomarea" (Some (d_area D)) kw in
  bind (next kw) (fun a => Ok (Source e f p (match g with None => Some (d_one D) | Some _ => g end), a)).

(** basesources.py:293-302 (and 341-342 PointSource); [sky]: coordinates as astropy makes them of the value, [scalar]: the attribute isscalar *)
Definition astro_init (D : defaults) (sky : option V -> result V) (scalar : V -> bool) (kw : keywords) : result (V * source) :=
  bind (pop_or_fail "coords" kw) (fun '(v, kw) =>
  bind (sky v) (fun c =>
  if scalar c then bind (source_init D element_init kw) (fun '(s, _) => Ok (c, s)) else Err ValueError)).
(** basesources.py:369-372: function, its parameters and the rest *)
Definition radial_source (D : defaults) (sky : option V -> result V) (scalar : V -> bool) (kw : keywords) : result (option V * option V * (V * source)) :=
  bind (pop_or_fail "radial_distribution" kw) (fun '(fn, kw) =>
  let (par, kw) := pop "func_par" None kw in
  bind (astro_init D sky scalar kw) (fun s => Ok (fn, par, s))).
(** basesources.py:409-413, 443-448; [pair]: a list with two values, [own]: the function of the class *)
Definition disk_source (D : defaults) (pair : option V -> option V -> V) (own : V) (sky : option V -> result V) (scalar : V -> bool) (kw : keywords) :
    result (option V * option V * (V * source)) :=
  bind (pop_or_fail "a_outer" kw) (fun '(outer, kw) =>
  let (inner, kw) := pop "a_inner" (Some (d_angle D)) kw in
  radial_source D sky scalar (dset "radial_distribution" (Some own) (dset "func_par" (Some (pair outer inner)) kw))).
(** basesources.py:463-465 *)
Definition gauss_source (D : defaults) (sky : option V -> result V) (scalar : V -> bool) (kw : keywords) : result (option V * (V * source)) :=
  bind (pop_or_fail "sigma" kw) (fun '(s, kw) => bind (astro_init D sky scalar kw) (fun r => Ok (s, r))).
(** basesources.py:502-504 *)
Definition symbol_source (D : defaults) (sky : option V -> result V) (scalar : V -> bool) (kw : keywords) : result (option V * (V * source)) :=
  let (s, kw) := pop "size" (Some (d_size D)) kw in
  bind (astro_init D sky scalar kw) (fun r => Ok (s, r)).

(** labSource.py:34-37, 90-92: flux without area. A keyword given twice is a TypeError *)
Definition lab_init {A} (D : defaults) (next : keywords -> result A) (kw : keywords) : result (source * A) :=
  let kw := if din "flux" kw then kw else dset "flux" (Some (d_labflux D)) kw in
  if din "geomarea" kw then Err TypeError else source_init D next (dset "geomarea" None kw).
(** labSource.py:33-37; [geometry]: what optics/base.py:80-90 makes of the keywords and those that are left *)
Definition far_init {G} (D : defaults) (geometry : keywords -> result (G * keywords)) (kw : keywords) : result (option V * (source * G)) :=
  match dget "sourcePos" kw with
  | None => Err TypeError
  | Some p => bind (lab_init D (fun kw => bind (geometry kw) (fun '(g, kw) => bind (element_init kw) (fun _ => Ok g))) (ddel "sourcePos" kw)) (fun s => Ok (p, s))
  end.
(** labSource.py:82-92: position, opening, direction (before normalisation) *)
Definition cone_init (D : defaults) (len : option V -> result nat) (kw : keywords) : result (option V * option V * option V * source) :=
  let (p, kw) := pop "position" (Some (d_origin D)) kw in
  let (o, kw) := pop "half_opening" (Some (d_opening D)) kw in
  let (d, kw) := pop "direction" (Some (d_axis D)) kw in
  bind (len p) (fun n => if negb (n =? 3)%nat then Err ValueError else
  bind (len d) (fun n => if negb (n =? 3)%nat then Err ValueError else
  bind (lab_init D element_init kw) (fun '(s, _) => Ok (p, o, d, s)))).

Record pointing := Pointing { p_coords : option V; p_roll : option V; p_reference : option V }.
(** pointing.py:86-92; [isscalar]: the attribute of the value, which need not have it *)
Definition fixed_init (D : defaults) (isscalar : option V -> result bool) (kw : keywords) : result pointing :=
  bind (pop_or_fail "coords" kw) (fun '(c, kw) =>
  bind (isscalar c) (fun b => if negb b then Err ValueError else
  let (r, kw) := pop "roll" (Some (d_roll D)) kw in
  let (t, kw) := pop "reference_transform" (Some (d_eye D)) kw in
  bind (element_init kw) (fun _ => Ok (Pointing c r t)))).
(** pointing.py:192-194 *)
Definition jitter_init (D : defaults) (abs : option V -> result V) (isscalar : option V -> result bool) (kw : keywords) : result (V * pointing) :=
  bind (pop_or_fail "jitter" kw) (fun '(j, kw) => bind (abs j) (fun j => bind (fixed_init D isscalar kw) (fun p => Ok (j, p)))).
(** dither.py:27-31 *)
Definition dither_init (D : defaults) (isscalar : option V -> result bool) (kw : keywords) : result (option V * option V * option V * pointing) :=
  let (a, kw) := pop "DitherAmp" (Some (d_amp D)) kw in
  let (t, kw) := pop "DitherPeriod" (Some (d_period D)) kw in
  let (h, kw) := pop "DitherPhase" (Some (d_phase D)) kw in
  bind (fixed_init D isscalar kw) (fun p => Ok (a, t, h, p)).

(** Spec: all keywords are in a list *)
Definition only (known : list string) (kw : keywords) : Prop := forall k v, dget k kw = Some v -> In k known.
(** Spec: the value of a keyword, or else a default *)
Definition given (k : string) (d : V) (kw : keywords) : option V := match dget k kw with Some v => v | None => Some d end.
(** Spec: the keywords of every source *)
Definition of_source : list string := ["energy"; "flux"; "polarization"; "geomarea"; "id_num"; "id_col"; "name"].
(** Spec: flux, energy, polarization and area of a source *)
Definition as_given (D : defaults) (kw : keywords) : source :=
  Source (given "energy" (d_energy D) kw) (given "flux" (d_flux D) kw) (match dget "polarization" kw with Some v => v | None => None end)
         (match dget "geomarea" kw with None => Some (d_area D) | Some None => Some (d_one D) | Some (Some v) => Some v end).
(** Spec: the same for a source in the laboratory *)
Definition lab_as_given (D : defaults) (kw : keywords) : source :=
  Source (given "energy" (d_energy D) kw) (given "flux" (d_labflux D) kw) (match dget "polarization" kw with Some v => v | None => None end) (Some (d_one D)).
End Keywords.
Arguments keywords V : clear implicits.
Arguments defaults V : clear implicits.
Arguments source V : clear implicits.
Arguments pointing V : clear implicits.

(** ** headers *)
Inductive card := Number (r : R) | Words (s : string).
(** a header entry: value with comment or value alone *)
Inductive entry := Commented (c : card) (comment : string) | Alone (c : card).
(** photon list: header, and columns with their units *)
Record photon_list := List { header : dict entry; columns : dict (option string) }.

(** basesources.py:252-279; [version], the clock and the environment are arguments. The time is in seconds *)
Definition new_list (version date clock : string) (user host : option string) (exposure : R) : photon_list :=
  List (dset "SIMHOST" (Commented (Words (match host with Some h => h | None => "unknown host" end)) "Host system running simulation")
       (dset "SIMUSER" (Commented (Words (match user with Some n => n | None => "unknown user" end)) "User running simulation")
       (dset "SIMTIME" (Commented (Words (substring 0 10 clock)) "Time simulation was started")
       (dset "SIMDATE" (Commented (Words date) "Date simulation was run")
       (dset "MARXSVER" (Commented (Words version) "MARXS version")
       (dset "LONGSTRN" (Commented (Words "OGIP 1.0") "The OGIP long string convention may be used.")
       (dset "CREATOR" (Alone (Words (String.append "MARXS - Version " version)))
       (dset "EXPOSURE" (Commented (Number exposure) "total exposure time [s]")
       (dset "EXTNAME" (Alone (Words "EVENTS")) [])))))))))
       [("time", Some "s"); ("energy", Some "keV"); ("polangle", Some "rad"); ("probability", None)].
(** basesources.py:325-329 *)
Definition set_sky (l : photon_list) : photon_list :=
  List (dset "COORDSYS" (Commented (Words "ICRS") "Type of coordinate system") (header l))
       (dset "dec" (Some "deg") (dset "ra" (Some "deg") (columns l))).
(** labSource.py:54-56, 131-133: columns in the system of the laboratory, which the list of a source does not have yet *)
Definition set_lab (l : photon_list) : photon_list :=
  List (header l) (dset "polarization" None (dset "dir" None (dset "pos" None (columns l)))).
(** pointing.py:30-41, 147-173: the list afterwards (it is changed in place) and the exception. The pointing is in degrees *)
Definition pointed (ra dec roll : R) (l : photon_list) : photon_list * option err :=
  if din "dir" (columns l) then (l, Some ValueError) else
  let l := List (header l) (dset "dir" (Some "mm") (columns l)) in
  if negb (din "ra" (columns l) && din "dec" (columns l) && din "time" (columns l)) then (l, Some KeyError) else
  let l := List (header l) (dset "dir" None (columns l)) in
  if negb (din "polangle" (columns l)) then (l, Some KeyError) else
  (List (dset "ROLL_NOM" (Commented (Number roll) "[deg] Nominal Pointing Roll")
        (dset "DEC_NOM" (Commented (Number dec) "[deg] Nominal Pointing Dec")
        (dset "RA_NOM" (Commented (Number ra) "[deg] Nominal Pointing RA")
        (dset "ROLL_PNT" (Commented (Number roll) "[deg] Pointing Roll")
        (dset "DEC_PNT" (Commented (Number dec) "[deg] Pointing Dec")
        (dset "RA_PNT" (Commented (Number ra) "[deg] Pointing RA") (header l)))))))
        (dset "polarization" None (columns l)), None).
