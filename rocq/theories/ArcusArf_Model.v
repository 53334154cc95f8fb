(** Arcus, third part: effective areas and defaults.  Models /repo/marxs/missions/arcus/arfrmf.py:18-227 (not the class FiltersQE, which is an
    argument), /repo/marxs/missions/arcus/load_csv.py:35-62, /repo/marxs/missions/arcus/defaults.py:27-70.  Energies in keV, lengths in mm, angles in radian.
    The conversion between energy and wavelength is [hc / e]. *)
From Coq Require Import String Ascii.
From Verif Require Export Cylinder_Model Plane_Model Osip_Model.
From Coq Require Import List.
Export ListNotations.
Open Scope R_scope.

(** ** Lines 38-107: class OnCCD *)
(** lines 51-57: x and z of the two edges of a CCD with the pos4d [m] *)
Definition ccd_corners (m : m4) : (R * R) * (R * R) :=
  let lo := sub4 (center m) (v_y m) in let hi := add4 (center m) (v_y m) in ((x4 lo, z4 lo), (x4 hi, z4 hi)).
(** line 59; [blazeang] in radian *)
Definition effective_period (blazeang : R) (periods : list R) : R := cos blazeang * (Rsum periods / INR (List.length periods)).
(** np.sign *)
Definition sign (x : R) : R := if Rltb x 0 then -1 else if Rltb 0 x then 1 else 0.
(** lines 91-93 *)
Definition corner_angle (opt_ax_x f : R) (c : R * R) : R := atan2 (sign opt_ax_x * (fst c - opt_ax_x)) (f - snd c).
(** lines 94-97; [None]: arcsin is nan *)
Definition theta (order : Z) (wave period : R) : option R :=
  let s := IZR order * wave / period in if (Rleb (-1) s && Rleb s 1)%bool then Some (asin s) else None.
(** lines 98-103; comparisons with nan are false *)
Definition on_ccd (ccds : list m4) (opt_ax_x f period : R) (order : Z) (wave : R) : bool :=
  match theta order wave period with
  | None => false
  | Some th => existsb (fun m => let '(c0, c1) := ccd_corners m in
                 let a0 := corner_angle opt_ax_x f c0 in let a1 := corner_angle opt_ax_x f c1 in
                 (Rltb (Rmin a0 a1) th && Rltb th (Rmax a0 a1))%bool) ccds
  end.

(** ** Lines 118-153: class MirrGrat.  [tab]: the interpolated columns by name; the names are the orders *)
Definition mirr_grat (tab : dict (R -> R)) (hc : R) (order : Z) (en : R) : result R :=
  match dget (str_int order) tab with Some f => Ok (Rmax (f (hc / en)) 0) | None => Err KeyError end.

(** ** Lines 156-226 [mkarf] *)
(** The parts of the configuration that are used *)
Record aconf := AConf { ac_axes : dict v4; ac_f : R; ac_period : R; ac_ccds : list m4 }.
Record arf := Arf { ar_lo : list R; ar_hi : list R; ar_resp : list R; ar_mirr : list R; ar_filt : list R; ar_on : list R;
                    ar_blo : list R; ar_bhi : list R; ar_chan : string; ar_order : Z }.
Fixpoint midpoints (l : list R) : list R := match l with a :: ((b :: _) as r) => 1 / 2 * (a + b) :: midpoints r | _ => [] end.
Fixpoint zip3 (f : R -> R -> R -> R) (a b c : list R) : list R :=
  match a, b, c with x :: a', y :: b', z :: c' => f x y z :: zip3 f a' b' c' | _, _, _ => [] end.
(** lines 204-209: the loop over the channels; [default]: the channels of [defaultconf] *)
Fixpoint add_on (default : list string) (conf : aconf) (hc : R) (order : Z) (en_mid : list R) (channels : list string) (all : list R) : result (list R) :=
  match channels with
  | [] => Ok all
  | chan :: rest =>
      if negb (inb chan default) then Err ValueError else
      match dget chan (ac_axes conf) with
      | None => Err KeyError
      | Some ax => add_on default conf hc order en_mid rest
          (map (fun ae => fst ae + (if on_ccd (ac_ccds conf) (x4 ax) (ac_f conf) (ac_period conf) order (hc / snd ae) then 1 else 0)) (combine all en_mid))
      end
  end.
(** line 224: [''.join(np.isin(list(conf), channels).astype(int).astype(str))] *)
Definition arcchan (conf : aconf) (channels : list string) : string :=
  String.concat ""%string (map (fun k => if inb k channels then "1"%string else "0"%string) (dkeys (ac_axes conf))).
Definition mkarf (default : list string) (conf : aconf) (hc : R) (tab : dict (R -> R)) (filt : R -> R) (conv : R -> R)
    (edges : list R) (order : Z) (channels : list string) : result arf :=
  let s := sortR (map conv edges) in
  let en_mid := midpoints s in
  bind (sequence (map (mirr_grat tab hc order) en_mid)) (fun sim =>
  let fq := map filt en_mid in
  bind (add_on default conf hc order en_mid channels (repeat 0 (List.length en_mid))) (fun all =>
  Ok (Arf (removelast s) (tl s) (zip3 (fun a b c => a * b * c) sim fq all) sim fq all (map (fun e => hc / e) (tl s)) (map (fun e => hc / e) (removelast s))
          (arcchan conf channels) order))).

(** ** Lines 19-35 [filename_from_meta] *)
Definition arcus_filename (filetype : string) (kw : dict kwval) : result string :=
  match dget "ARCCHAN" kw with
  | None => Err KeyError
  | Some v =>
      let chan := match v with KStr s => if String.eqb s "1111" then "all"%string else s | KInt z => str_int z end in
      bind (filename_from_meta filetype (ddel "ARCCHAN" kw)) (fun r => Ok (String.append (String.append "chan_" chan) r))
  end.

(** ** load_csv.py:35-62 [load_number]: the rows of the column; DataFileFormatException is written as Exception *)
Definition load_number {V} (column : option (list V)) (nrows : nat) : result V :=
  if negb (Nat.eqb nrows 1) then Err Exception else
  match column with None => Err KeyError | Some (v :: _) => Ok v | Some [] => Err IndexError end.
(** ** defaults.py: keywords of DefaultSource (lines 41-45) and DefaultPointing (63-70) that are passed to the base class *)
Definition fill_defaults {V} (defaults kwargs : dict V) : dict V :=
  fold_left (fun kw kv => if din (fst kv) kw then kw else dset (fst kv) (snd kv) kw) defaults kwargs.
Definition default_pointing {V} (defaults : dict V) (jitter : result V) (kwargs : dict V) : result (dict V) :=
  let kw := fill_defaults defaults kwargs in
  if din "jitter" kw then Ok kw else bind jitter (fun j => Ok (dset "jitter" j kw)).

(** ** Spec *)
(** Spec: the ray from the grating at (x, z) = ([ox], [f]) in direction of the angle with sine [s] and cosine [c] (towards the side [sg]) crosses the CCD
    between its edges; the edge itself is not on the ray *)
Definition crosses (ox f sg s c : R) (c0 c1 : R * R) : Prop :=
  (exists t k, 0 < t < 1 /\ 0 < k /\ (1 - t) * fst c0 + t * fst c1 = ox + sg * (k * s) /\ (1 - t) * snd c0 + t * snd c1 = f - k * c) /\
  ~ (exists k, 0 < k /\ fst c0 = ox + sg * (k * s) /\ snd c0 = f - k * c).
(** Spec: all edges are below the gratings *)
Definition below (f : R) (m : m4) : Prop := snd (fst (ccd_corners m)) < f /\ snd (snd (ccd_corners m)) < f.
(** Spec: mirror image in x *)
Definition mirror_x (m : m4) : m4 :=
  let g v := V4 (- x4 v) (y4 v) (z4 v) (w4 v) in M4 (g (b0 m)) (g (b1 m)) (g (b2 m)) (g (b3 m)).
(** Spec: for how many channels of a list is a wavelength on a CCD *)
Definition n_on (conf : aconf) (hc : R) (order : Z) (channels : list string) (en : R) : nat :=
  List.length (filter (fun chan => match dget chan (ac_axes conf) with
    | Some ax => on_ccd (ac_ccds conf) (x4 ax) (ac_f conf) (ac_period conf) order (hc / en) | None => false end) channels).
(** Spec: the text for the channels in a file name *)
Definition chan_text (s : string) : string := if String.eqb s "1111" then "all"%string else s.
