(** Chandra file headers and column order: models /repo/marxs/missions/chandra/fitsheaders.py and
    /repo/marxs/missions/chandra/chandra_global.py:19-38. *)
From Verif Require Export Base.
From Coq Require Export Ascii Permutation Sorted.

(** Header values: strings, numbers, booleans and (value, comment) *)
Inductive hv := HStr (s : string) | HNum (x : Q) | HBool (b : bool) | HTup (v : hv) (comment : string).
Definition header := dict hv.

(** fitsheaders.py:12-15 *)
Definition update_header (h : header) (l : list (string * hv)) : header :=
  fold_left (fun h kv => if din (fst kv) h then h else dset (fst kv) (snd kv) h) l h.
Definition item (h : header) (k : string) : result hv := match dget k h with Some v => Ok v | None => Err KeyError end.
(** [header[k][0]] *)
Definition item0 (h : header) (k : string) : result hv :=
  bind (item h k) (fun v =>
  match v with
  | HTup x _ => Ok x
  | HStr (String c _) => Ok (HStr (String c EmptyString))
  | HStr EmptyString => Err IndexError
  | HNum _ | HBool _ => Err TypeError
  end).
(** fitsheaders.py:17-27 [complete_CC]; [hduclass] is a list of strings or a string, whose letters are then used *)
Definition cc_keywords (content : string) (extname : hv) (hduclass : list string) : list (string * hv) :=
  ([("ORIGIN", HStr "ASC"); ("HDUDOC", HStr "ASC-FITS-2.0: Rots, McDowell: ASC FITS File Designers Guide");
    ("CONTENT", HStr content); ("HDUNAME", extname)]
   ++ combine ["HDUCLASS"; "HDUCLAS1"; "HDUCLAS2"; "HDUCLAS3"] (map HStr hduclass))%list.
Definition complete_CC (h : header) (content : string) (hduclass : list string) : result header :=
  bind (item h "EXTNAME") (fun extname => Ok (update_header h (cc_keywords content extname hduclass))).
(** fitsheaders.py:30-63 [complete_T]: [now] is the current time and [later] this time plus the exposure, both as strings (first 23 letters), [cxcsec] and
    [mjd] convert such a string ([None]: no valid time, ValueError). Comments of the keywords are left out, and an
    exposure that is not a number is always refused. *)
Record clock := Clock { now : string; later : Q -> string; cxcsec : string -> option Q; mjd : string -> Q }.
Definition tup (v : hv) : hv := HTup v EmptyString.
Definition exposure (h : header) : result Q :=
  bind (item0 h "EXPOSURE") (fun v => match v with HNum x => Ok x | _ => Err TypeError end).
Definition timing_keywords (c : clock) (x : Q) : list (string * hv) :=
    [("DATE", tup (HStr (now c))); ("DATE-OBS", tup (HStr (now c))); ("DATE-END", tup (HStr (later c x)));
     ("TIMESYS", tup (HStr "TT")); ("MJDREF", tup (HNum 50814)); ("TIMEZERO", tup (HNum 0)); ("TIMEUNIT", HStr "s");
     ("BTIMNULL", tup (HNum 0)); ("BTIMRATE", tup (HNum (25625000912249 # 100000000000000)));
     ("BTIMDRFT", tup (HNum (21806598193841 # 1000000000000000000000000000000))); ("BTIMCORR", tup (HNum 0)); ("TIMEREF", tup (HStr "LOCAL"));
     ("TASSIGN", tup (HStr "SATELLITE")); ("CLOCKAPP", tup (HBool true)); ("TIERRELA", tup (HNum (1 # 1000000000)));
     ("TIERABSO", tup (HNum (1 # 10000))); ("TIMVERSN", tup (HStr "ASC-FITS-2.1")); ("TIMEPIXR", tup (HNum 0)); ("TIMEDEL", tup (HNum (3241 # 1000)))].
(** fitsheaders.py:59-63 *)
Definition set_times (c : clock) (x : Q) (h1 : header) : result header :=
  bind (item0 h1 "DATE-OBS") (fun d =>
  match d with
  | HStr s =>
      match cxcsec c s with
      | Some t => Ok (dset "OBS-MJD" (HNum (mjd c s)) (dset "TSTOP" (tup (HNum (t + x))) (dset "TSTART" (tup (HNum t)) h1)))
      | None => Err ValueError
      end
  | _ => Err ValueError
  end).
Definition complete_T (c : clock) (h : header) : result header :=
  bind (exposure h) (fun x => set_times c x (update_header h (timing_keywords c x))).
(** fitsheaders.py:66-77 [complete_O]: the list is made but not used *)
Definition observation_keywords (x : Q) : list (string * hv) :=
  [("MISSION", tup (HStr "AXAF")); ("TELESCOP", tup (HStr "CHANDRA")); ("GRATING", tup (HStr "NONE")); ("DATACLASS", tup (HStr "SIMULATED"));
   ("ONTIME", tup (HNum x)); ("DTCOR", tup (HNum 1)); ("LIVETIME", tup (HNum x)); ("OBSERVER", tup (HStr "MARXS")); ("FOC_LEN", tup (HNum (1006165 # 100)))].
Definition complete_O (h : header) : result header := bind (item0 h "EXPOSURE") (fun _ => bind (item0 h "EXPOSURE") (fun _ => Ok h)).
(** fitsheaders.py:87-119 [add_evt_column_header]: dictionaries have no method [iterkeys], nothing else is reached *)
Definition add_evt_column_header (h : header) (data : list string) : result header := Err AttributeError.
(** fitsheaders.py:122-157 [complete_header] *)
Inductive content_arg := CStr (s : string) | CList (l : list string).
Definition upper_ascii (c : ascii) : ascii := let n := nat_of_ascii c in if (97 <=? n) && (n <=? 122) then ascii_of_nat (n - 32) else c.
Definition lower_ascii (c : ascii) : ascii := let n := nat_of_ascii c in if (65 <=? n) && (n <=? 90) then ascii_of_nat (n + 32) else c.
Fixpoint smap (f : ascii -> ascii) (s : string) : string := match s with EmptyString => EmptyString | String c r => String (f c) (smap f r) end.
Definition upper := smap upper_ascii.
Definition lower := smap lower_ascii.
Definition complete_header (c : clock) (h : header) (data : list string) (content : content_arg) (hduclass : list string) : result header :=
  match content with
  | CList _ => Err AttributeError                       (* list.upper *)
  | CStr s =>
      bind (if String.prefix "EVT" (upper s) then add_evt_column_header h data else Ok h) (fun h =>
      bind (complete_CC h s hduclass) (fun h =>
      bind (complete_T c h) complete_O))
  end.
(** the default arguments *)
Definition complete_header_default (c : clock) (h : header) (data : list string) : result header :=
  complete_header c h data (CList ["UNKNOWN"]) ["U"; "N"; "K"; "N"; "O"; "W"; "N"].
(** chandra_global.py:19-38 [write_evt] for the header and the names of the columns *)
Definition rename_column (old new : string) (cols : list string) : result (list string) :=
  if inb old cols then if inb new cols then Err KeyError else Ok (map (fun c => if String.eqb c old then new else c) cols) else Err KeyError.
Definition write_evt (c : clock) (h : header) (cols : list string) : result (header * list string) :=
  bind (rename_column "ra" "marxs_ra" cols) (fun cols =>
  bind (rename_column "dec" "marxs_dec" cols) (fun cols =>
  bind (complete_header c (dset "EXTNAME" (HStr "EVENTS") h) cols (CStr "EVT1") ["OGIP"; "EVENTS"; "ALL"]) (fun h => Ok (h, cols)))).

(** ** 159-215 [sort_columns] *)
(** [c[:-1]] and [c[-1]]; [None] for an empty string *)
Fixpoint split_last (s : string) : option (string * ascii) :=
  match s with
  | EmptyString => None
  | String c r => match split_last r with None => Some (EmptyString, c) | Some (i, l) => Some (String c i, l) end
  end.
Definition ends (a : ascii) (cols : list string) : list string :=
  flat_map (fun c => match split_last c with Some (s, l) => if Ascii.eqb l a then [s] else [] | None => [] end) cols.
Definition char_x : ascii := "x"%char.
Definition char_y : ascii := "y"%char.
Definition colx (s : string) : string := s ++ String char_x EmptyString.
Definition coly (s : string) : string := s ++ String char_y EmptyString.
(** the first element whose lower case version is [c] is taken out *)
Fixpoint take_first (c : string) (l : list string) : option (string * list string) :=
  match l with
  | [] => None
  | s :: r => if String.eqb (lower s) c then Some (s, r) else match take_first c r with Some (t, r') => Some (t, s :: r') | None => None end
  end.
Fixpoint take_expected (expected l : list string) : list string :=
  match expected with
  | [] => l
  | c :: cs => match take_first c l with Some (s, r) => s :: take_expected cs r | None => take_expected cs l end
  end.
Fixpoint take_pairs (pairs : list (string * string)) (other : list string) : list string * list string :=
  match pairs with
  | [] => ([], other)
  | (p, q) :: ps =>
      if inb p other && inb q other
      then let (o, r) := take_pairs ps (filter (fun c => negb (String.eqb c p) && negb (String.eqb c q)) other) in (p :: q :: o, r)
      else take_pairs ps other
  end.
Fixpoint insert_str (s : string) (l : list string) : list string :=
  match l with [] => [s] | t :: r => if String.leb s t then s :: l else t :: insert_str s r end.
Definition sort_str (l : list string) : list string := fold_right insert_str [] l.
(** [enum] is the order in which python lists the elements of a set *)
Definition ordered_cols (enum : list string -> list string) (cols : list string) : result (list string) :=
  if inb "" cols then Err IndexError else
  let endxy := enum (filter (fun s => inb s (ends char_y cols)) (ends char_x cols)) in
  let othercol := filter (fun c => negb (inb c (map colx endxy)) && negb (inb c (map coly endxy))) cols in
  let pairs_xy := flat_map (fun s => [colx s; coly s]) (take_expected ["chip"; "tdet"; "det"; ""] endxy) in
  let (ordered, rest) := take_pairs [("ra", "dec"); ("RA", "DEC"); ("ra", "de"); ("RA", "DE")] othercol in
  Ok (pairs_xy ++ ordered ++ sort_str rest)%list.
(** the last line calls the table instead of indexing it *)
Definition sort_columns (enum : list string -> list string) (cols : list string) : result (list string) :=
  bind (ordered_cols enum cols) (fun _ => Err TypeError).
