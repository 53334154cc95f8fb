(** Responses for order 0 and input files of Arcus: models /repo/marxs/missions/arcus/arfrmf.py:232-280 ([mkrmf0]) and /repo/marxs/missions/arcus/load_csv.py. Numbers are real numbers.
    sherpa's NormGauss1D is a distribution function as in C147, and the units of the table of widths fit (energy in keV, width in eV); the two headers are left out (see C185).
    astropy's reading of files is an argument. *)
From Verif Require Export Analysis_Model Ogip_Model.
Open Scope R_scope.

(** arfrmf.py:270-279: one row; [lo], [hi]: energies of the channels, [fwhm]: energy and width in keV *)
Definition zero_row (F : profile) (fwhm : list (R * R)) (thr : R) (lo hi : list R) (b : R * R) : result mrow :=
  let mid := 1 / 2 * (fst b + snd b) in
  bind (Analysis_Model.interp fwhm mid) (fun w =>
  let full := map (fun c => F NormGauss1D w mid (snd c) - F NormGauss1D w mid (fst c)) (combine lo hi) in
  bind (arr_to_rmf_matrix_row full 0 thr) (fun out =>
  let '(ngrp, fchan, nchan, mat) := out in Ok (Mrow (fst b) (snd b) ngrp (Rmf_Model.Arr fchan) (Rmf_Model.Arr nchan) mat))).
(** arfrmf.py:232-280 [mkrmf0]; [conv]: energy of an edge in keV, [ccd]: energy in keV and width in eV *)
Definition mkrmf0 (F : profile) (conv : R -> R) (edges : list R) (ccd : list (R * R)) (thr : R) : result (list mrow * (list nat * list R * list R)) :=
  let ebounds := ebounds_from_edges conv edges in
  let '(_, lo, hi) := ebounds in
  let fwhm := map (fun p => (fst p, snd p / 1000)) ccd in
  bind (sequence (map (zero_row F fwhm thr lo hi) (combine lo hi))) (fun m => Ok (m, ebounds)).
(** Spec: a distribution that is symmetric about its position *)
Definition even_profile (F : profile) : Prop := forall k w c d, F k w c (c + d) + F k w c (c - d) = 1.
(** Spec: a distribution without gaps *)
Definition rising (F : profile) : Prop := forall k w c a b, 0 < w -> a < b -> F k w c a < F k w c b.

(** ** load_csv.py *)
(** a table: number of rows, columns with values and unit *)
Record ecsv := Ecsv { e_len : nat; e_cols : dict (list R * option string) }.
(** a number, with or without unit *)
Inductive cnum := Plain (x : R) | WithUnit (x : R) (unit : string).
(** messages in the log *)
Inductive msg := Hash | Loading (dir file : string).
(** the state of the module: the flag [hash_displayed] and the log *)
Definition cstate : Type := bool * list msg.
(** load_csv.py:16-32 [log_tab_metadata] *)
Definition log_tab_metadata (dir file : string) (s : cstate) : cstate :=
  let '(shown, log) := s in
  let log := if shown then log else log ++ [Hash] in
  (true, log ++ [Loading dir file]).
(** load_csv.py:35-62 [load_number]; [read]: astropy; the new exception is an Exception, its text (which speaks of more than one row) is not kept *)
Definition load_number (read : string -> string -> result ecsv) (dir file col : string) (s : cstate) : cstate * result cnum :=
  match read dir file with
  | Err e => (s, Err e)
  | Ok t =>
      let s := log_tab_metadata dir file s in
      (s, if negb (Nat.eqb (e_len t) 1) then Err Exception else
          match dget col (e_cols t) with
          | None => Err KeyError
          | Some (v, None) => match nth_error v 0 with Some x => Ok (Plain x) | None => Err IndexError end
          | Some (v, Some u) => match nth_error v 0 with Some x => Ok (WithUnit x u) | None => Err IndexError end
          end)
  end.
(** load_csv.py:65-82 [load_table] *)
Definition load_table (read : string -> string -> result ecsv) (dir file : string) (s : cstate) : cstate * result ecsv :=
  match read dir file with Err e => (s, Err e) | Ok t => (log_tab_metadata dir file s, Ok t) end.
(** a sequence of calls of both functions, [Some col]: load_number *)
Fixpoint load_all (read : string -> string -> result ecsv) (calls : list (string * string * option string)) (s : cstate) : cstate :=
  match calls with
  | [] => s
  | (d, f, Some c) :: r => load_all read r (fst (load_number read d f c s))
  | (d, f, None) :: r => load_all read r (fst (load_table read d f s))
  end.
(** Spec: files that can be read *)
Definition readable (read : string -> string -> result ecsv) (c : string * string * option string) : bool := match read (fst (fst c)) (snd (fst c)) with Ok _ => true | Err _ => false end.
(** Spec: columns as long as the table *)
Definition ecsv_ok (t : ecsv) : Prop := forall c v u, dget c (e_cols t) = Some (v, u) -> List.length v = e_len t.
