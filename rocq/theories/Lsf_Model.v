(** Line spread functions: models /repo/marxs/reduction/lsfparm.py:21-418. Sherpa and scipy are arguments: the cumulative profile of a
    component and the interpolation functions. Limits that Sherpa puts on parameters are left out. *)
From Verif Require Export Base Vec_Model Rmf_Model Sampling_Model.
From Coq Require Import Ascii.
Open Scope R_scope.

(** ** Column names, lsfparm.py:28-30 *)
(** [re.match] of a literal at the start of the string: the rest of the string *)
Fixpoint match_lit (p s : string) : option string :=
  match p, s with
  | EmptyString, _ => Some s
  | String a p', String b s' => if Ascii.eqb a b then match_lit p' s' else None
  | _, EmptyString => None
  end.
Definition is_digit (c : ascii) : bool := (Nat.leb 48 (nat_of_ascii c) && Nat.leb (nat_of_ascii c) 57)%bool.
(** [[0-9]*], greedy; what follows in the expressions below is not a digit, so there is no need to go back *)
Fixpoint skip_digits (s : string) : string := match s with String c r => if is_digit c then skip_digits r else s | EmptyString => s end.
Definition match_digits (s : string) : option string := match s with String c r => if is_digit c then Some (skip_digits r) else None | EmptyString => None end.
Definition match_parms (name s : string) : bool :=
  match match_lit name s with
  | None => false
  | Some r => match match_digits r with None => false | Some r' => match match_lit "_PARMS" r' with None => false | Some _ => true end end
  end.
Definition gaussn : string -> bool := match_parms "GAUSS".
Definition lorentzn : string -> bool := match_parms "LORENTZ".
Definition modelnames (s : string) : bool := (gaussn s || lorentzn s)%bool.

(** ** Sherpa models *)
Inductive kind := NormGauss1D | Lorentz1D.
Record comp := Comp { c_kind : kind; c_name : string; c_ampl : R; c_fwhm : R; c_pos : R }.
(** Expressions of components; [parts] of a sum or product are its two operands. *)
Inductive shmodel := MComp (c : comp) | MScale (name : string) (c0 : R) | MAdd (a b : shmodel) | MMul (a b : shmodel).
(** lsfparm.py:34-35 *)
Definition gconv : R := 2 * sqrt (2 * ln 2).
Definition conv_fwhm (k : kind) : R := match k with NormGauss1D => gconv | Lorentz1D => 1 end.
(** the value of a model integrated over a bin. [profile]: integral of the component with amplitude 1 up to a position (Sherpa). Scale1D is not integrated. *)
Definition profile := kind -> R -> R -> R -> R.
Fixpoint meval (F : profile) (m : shmodel) (lo hi : R) : R :=
  match m with
  | MComp c => c_ampl c * (F (c_kind c) (c_fwhm c) (c_pos c) hi - F (c_kind c) (c_fwhm c) (c_pos c) lo)
  | MScale _ c0 => c0
  | MAdd a b => meval F a lo hi + meval F b lo hi
  | MMul a b => meval F a lo hi * meval F b lo hi
  end.

(** ** LSFPARM tables *)
(** A column of one row: numbers by width and wavelength, or triples (amplitude, width, position) *)
Inductive lsfcol := Frac (z : list (list R)) | Parms (z : list (list (R * R * R))) | Info.
Record lsfrow := Row { w_num_widths : nat; w_widths : list R; w_lambdas : list R; w_cols : list (string * lsfcol); w_meta : dict string }.
Definition at2 {A} (z : list (list A)) (i j : nat) : result A :=
  match nth_error z i with None => Err IndexError | Some l => match nth_error l j with None => Err IndexError | Some x => Ok x end end.
Definition kind_of (col : string) : option kind := if gaussn col then Some NormGauss1D else if lorentzn col then Some Lorentz1D else None.

(** ** lsfparm.py:42-89 [caldb2sherpa] *)
(** the components of the model, and the fraction of the encircled energy *)
Definition new_comp (k : kind) (col : string) (p : R * R * R) : comp :=
  let '(a, w, x) := p in Comp k col a (w * conv_fwhm k) x.
Fixpoint caldb_comps (cols : list (string * lsfcol)) (iwidth iwave : nat) : result (option R * list comp) :=
  match cols with
  | [] => Ok (None, [])
  | (col, c) :: rest =>
      bind (if String.eqb col "EE_FRACS" then match c with Frac z => bind (at2 z iwidth iwave) (fun e => Ok (Some e, [])) | _ => Err IndexError end
            else match kind_of col with
                 | Some k => match c with Parms z => bind (at2 z iwidth iwave) (fun p => Ok (None, [new_comp k col p])) | _ => Err IndexError end
                 | None => Ok (None, [])
                 end) (fun here =>
      bind (caldb_comps rest iwidth iwave) (fun later =>
      Ok (match fst later with Some e => Some e | None => fst here end, snd here ++ snd later)))
  end.
(** lines 83-86, 306-311: the amplitudes are divided by their sum; a sum of 0 (nan in numpy) is not modelled *)
Definition sumampl (l : list comp) : R := Rsum (map c_ampl l).
Definition normalise (l : list comp) : list comp := map (fun c => Comp (c_kind c) (c_name c) (c_ampl c / sumampl l) (c_fwhm c) (c_pos c)) l.
(** lines 89 and 315: [eef * sum(model[1:], model[0])]; [eef] is evaluated first *)
Definition assemble (e : option R) (l : list comp) : result shmodel :=
  match e with
  | None => Err UnboundLocalError
  | Some e => match normalise l with [] => Err IndexError | c :: r => Ok (MMul (MScale "EE_FRACS" e) (fold_left (fun m c => MAdd m (MComp c)) r (MComp c))) end
  end.
Definition caldb2sherpa (row : lsfrow) (iwidth iwave : nat) : result shmodel :=
  bind (caldb_comps (w_cols row) iwidth iwave) (fun r => assemble (fst r) (snd r)).

(** ** lsfparm.py:92-120 *)
Fixpoint flatten (m : shmodel) : list shmodel := match m with MAdd a b | MMul a b => flatten a ++ flatten b | _ => [m] end.
Definition sherpa2caldb (m : shmodel) : result (dict (R * R * R)) :=
  fold_left (fun d m => bind d (fun d => match m with
    | MComp c => Ok (dset (c_name c) (c_ampl c, c_fwhm c / conv_fwhm (c_kind c), c_pos c) d)
    | _ => Err Exception end)) (flatten m) (Ok []).

(** ** lsfparm.py:229-273 [CALDB_interp] *)
(** [i1 x y]: scipy interp1d; [i2 x y z]: scipy interp2d, where z is an array with as many rows as there are numbers in y, and one column for each x *)
Definition interp1 := list R -> list R -> R -> R.
Definition interp2 := list R -> list R -> list (list R) -> R -> R -> R.
Inductive spline := SFrac (f : R -> R -> R) | SParms (a w x : R -> R -> R).
Definition rectangle {A} (n m : nat) (z : list (list A)) : bool := (Nat.eqb (List.length z) n && forallb (fun l => Nat.eqb (List.length l) m) z)%bool.
Definition interp (i1 : interp1) (i2 : interp2) (row : lsfrow) (z : list (list R)) : result (R -> R -> R) :=
  if Nat.ltb 1 (w_num_widths row) then
    if rectangle (List.length (w_lambdas row)) (List.length (w_widths row)) z then Ok (i2 (w_widths row) (w_lambdas row) z) else Err ValueError
  else match z with
       | [l] => if Nat.eqb (List.length l) (List.length (w_lambdas row)) then Ok (fun _ y => i1 (w_lambdas row) l y) else Err ValueError
       | _ => Err ValueError
       end.
Definition p_a (p : R * R * R) : R := fst (fst p).
Definition p_w (p : R * R * R) : R := snd (fst p).
Definition p_x (p : R * R * R) : R := snd p.
Fixpoint caldb_interp (i1 : interp1) (i2 : interp2) (row : lsfrow) (cols : list (string * lsfcol)) : result (list (string * spline)) :=
  match cols with
  | [] => Ok []
  | (col, c) :: rest =>
      bind (if String.eqb col "EE_FRACS" then match c with Frac z => bind (interp i1 i2 row z) (fun f => Ok [(col, SFrac f)]) | _ => Err ValueError end
            else if modelnames col then
              match c with
              | Parms z => bind (interp i1 i2 row (map (map p_a) z)) (fun a => bind (interp i1 i2 row (map (map p_w) z)) (fun w =>
                           bind (interp i1 i2 row (map (map p_x) z)) (fun x => Ok [(col, SParms a w x)])))
              | _ => Err IndexError
              end
            else Ok []) (fun here => bind (caldb_interp i1 i2 row rest) (fun later => Ok (here ++ later)))
  end.
Definition CALDB_interp (i1 : interp1) (i2 : interp2) (row : lsfrow) : result (list (string * spline)) := caldb_interp i1 i2 row (w_cols row).

(** ** lsfparm.py:276-315 [sherpa_from_spline] *)
(** a number with a unit; only [.value] is used *)
Record quantity := Q { q_value : R; q_unit : R }.
Fixpoint spline_comps (s : list (string * spline)) (width wave : R) : result (option R * list comp) :=
  match s with
  | [] => Ok (None, [])
  | (col, f) :: rest =>
      bind (if String.eqb col "EE_FRACS" then match f with SFrac f => Ok (Some (f width wave), []) | SParms _ _ _ => Err TypeError end
            else match kind_of col with
                 | Some k => match f with
                             | SParms a w x => Ok (None, [Comp k col (Rabs (a width wave)) (Rabs (w width wave * conv_fwhm k)) (Rabs (x width wave))])
                             | SFrac _ => Err TypeError end
                 | None => Ok (None, [])
                 end) (fun here =>
      bind (spline_comps rest width wave) (fun later =>
      Ok (match fst later with Some e => Some e | None => fst here end, snd here ++ snd later)))
  end.
Definition sherpa_from_spline (s : list (string * spline)) (width wave : quantity) : result shmodel :=
  bind (spline_comps s (q_value width) (q_value wave)) (fun r => assemble (fst r) (snd r)).

(** ** lsfparm.py:318-358 [make_rmf] *)
Definition COPY_LSFPARM_KEYWORDS : list string :=
  ["TELESCOP"; "INSTRUME"; "FILTER"; "DETNAM"; "RAND_TG"; "GRATING"; "GRATTYPE"; "TG_M"; "ORDER"; "SHELL"]%string.
Definition copy_keywords (meta : dict string) (tab : dict string) : dict string :=
  fold_left (fun t k => match dget k meta with Some v => dset k v t | None => t end) COPY_LSFPARM_KEYWORDS tab.
(** [hc]: product of a wavelength in Angstrom and an energy in keV *)
Definition matrix_row (F : profile) (model : result shmodel) (ang_lo ang_hi : list R) (threshold e_lo e_hi : R) : result mrow :=
  bind model (fun m =>
  let fullmatrix := map (fun b => meval F m (fst b) (snd b)) (combine (rev ang_lo) (rev ang_hi)) in
  bind (arr_to_rmf_matrix_row (rev fullmatrix) 0 threshold) (fun out =>
  let '(ngrp, fchan, nchan, mat) := out in Ok (Mrow e_lo e_hi ngrp (Arr fchan) (Arr nchan) mat))).
Record rmffile := Rmffile { f_matrix : list mrow; f_ebounds : list nat * list R * list R; f_detchans : nat; f_matrix_meta : dict string; f_ebounds_meta : dict string }.
Definition make_rmf (i1 : interp1) (i2 : interp2) (F : profile) (hc : R) (row : lsfrow) (wave_edges : list R) (width : quantity) (threshold : R) : result rmffile :=
  let ebounds := ebounds_from_edges (fun w => hc / w) wave_edges in
  let '(channel, e_min, e_max) := ebounds in
  let ang_lo := map (fun e => hc / e) e_max in
  let ang_hi := map (fun e => hc / e) e_min in
  let midwave := map (fun b => 1 / 2 * (fst b + snd b)) (combine ang_lo ang_hi) in
  bind (CALDB_interp i1 i2 row) (fun splines =>
  bind (sequence (map (fun b => matrix_row F (sherpa_from_spline splines width (Q (fst b) 1)) ang_lo ang_hi threshold (fst (snd b)) (snd (snd b)))
                      (combine midwave (combine e_min e_max)))) (fun m =>
  Ok (Rmffile m ebounds (List.length wave_edges - 1) (copy_keywords (w_meta row) [("TLMIN4", "0")]%string) (copy_keywords (w_meta row) [("TLMIN1", "0")]%string)))).

(** ** lsfparm.py:123-200 [empty_lsfparmtable] *)
(** a keyword: a string, a tuple of strings (a trailing comma), or the order *)
Inductive hval := HStr (s : string) | HTuple (l : list string) | HInt (z : Z).
(** columns with their shape, and the numbers that are filled in *)
Record column := Col { l_name : string; l_shape : list nat; l_data : list R }.
Definition mname (m : shmodel) : string := match m with MComp c => c_name c | MScale n _ => n | MAdd _ _ => "add" | MMul _ _ => "mul" end.
Definition is_comp (m : shmodel) : bool := match m with MComp _ => true | _ => false end.
Fixpoint nodupb (l : list string) : bool := match l with [] => true | x :: r => (negb (inb x r) && nodupb r)%bool end.
Fixpoint diffR (l : list R) : list R := match l with x :: (y :: _) as r => (y - x) :: diffR r | _ => [] end.
Fixpoint maxR (x : R) (l : list R) : R := match l with [] => x | y :: r => Rmax x (maxR y r) end.
Definition empty_lsfparmtable (date : string) (widths waves : list R) (model : shmodel) (extname : string) (order : Z) : result (list column * dict hval) :=
  match diffR waves with
  | [] => Err ValueError
  | d :: r =>
      let dwave := maxR d r + 12 / 10 in
      let comps := flatten model in
      let names := map mname comps in
      if negb (nodupb names) then Err ValueError
      else if negb (forallb is_comp comps) then Err ValueError
      else
        let nw := List.length widths in let nl := List.length waves in
        Ok ([Col "NUM_WIDTHS" [] [INR nw]; Col "WIDTHS" [nw] widths; Col "NUM_LAMBDAS" [] [INR nl]; Col "LAMBDAS" [nl] waves;
             Col "TG_LAM_LO" [nl] (map (fun w => w - dwave) waves); Col "TG_LAM_HI" [nl] (map (fun w => w + dwave) waves); Col "EE_FRACS" [nw; nl] []]
            ++ map (fun n => Col (n ++ "_PARMS") [nw; nl; 3%nat] []) names,
            [("EXTNAME", HStr extname); ("CCLS0001", HStr "CPF"); ("CDTP0001", HStr "DATA"); ("CCNM0001", HStr "LSFPARM"); ("RAND_TG", HStr "0.0");
             ("LONGSTRN", HStr "OGIP 1.0"); ("CREATOR", HStr "lsfparm.py"); ("DATE", HTuple [date]); ("CONTENT", HStr ("CDB_" ++ extname ++ "_LSFPARM"));
             ("HDUCLASS", HTuple ["ASC"]); ("HDUCLAS1", HStr "PARAMETERS"); ("HDUCLAS2", HStr "PSF"); ("HDUCLAS3", HStr "LSF"); ("TG_M", HInt order); ("ORDER", HInt order);
             ("DETNAM", HStr "UNKNOWN"); ("INSTRUME", HStr "UNKNOWN"); ("CVSD0001", HStr "1999-07-22T00:00:00"); ("CVST0001", HStr "00:00:00");
             ("TELESCOP", HStr "UNKOWN"); ("FILTER", HStr "UNKNOWN")]%string)
  end.

(** ** lsfparm.py:408-414: the histogram of [fit_LSF] *)
(** [np.arange(a, b, s)] *)
Definition arangeR (a b s : R) : list R := map (fun i => a + INR i * s) (seq 0 (Z.to_nat (Rceil ((b - a) / s)))).
(** [np.histogram] with given edges: bins are half open, only the last one is closed *)
Fixpoint histogram (edges : list R) (vals : list (R * R)) : list R :=
  match edges with
  | lo :: (hi :: rest) as e =>
      Rsum (map snd (filter (fun v => (Rleb lo (fst v) && (match rest with [] => Rleb (fst v) hi | _ => Rltb (fst v) hi end))%bool) vals)) :: histogram e vals
  | _ => []
  end.
Definition meanR (l : list R) : R := Rsum l / INR (List.length l).
(** edges, counts and errors; [evt]: wavelength and probability of the photons; at least two edges are needed, and a mean *)
Definition fit_data (evt : list (R * R)) (wavebin d_wave : R) : result (list R * list R * list R) :=
  match evt with
  | [] => Err ValueError
  | _ =>
      let mean := meanR (map fst evt) in
      let edges := map (fun x => mean + x) (arangeR (- d_wave) d_wave wavebin) in
      let hist := histogram edges evt in
      Ok (edges, hist, map (fun h => Rmax 1 (sqrt h)) hist)
  end.

(** ** Spec *)
(** Spec: a name followed by digits and [_PARMS], and nothing else *)
Definition digits (s : string) : Prop := s <> EmptyString /\ Forall (fun c => is_digit c = true) (list_ascii_of_string s).
(** Spec: the integrated profile of Sherpa's components: increasing from 0 to 1 *)
Definition profile_ok (F : profile) : Prop := forall k w x, (forall a b, a <= b -> F k w x a <= F k w x b) /\ (forall a, 0 <= F k w x a <= 1).
(** Spec: interpolation passes through the given points *)
Definition interp1_ok (i1 : interp1) : Prop := forall xs ys i x y, NoDup xs -> nth_error xs i = Some x -> nth_error ys i = Some y -> i1 xs ys x = y.
Definition interp2_ok (i2 : interp2) : Prop := forall xs ys z i j x y l v, NoDup xs -> NoDup ys -> nth_error xs i = Some x -> nth_error ys j = Some y ->
  nth_error z j = Some l -> nth_error l i = Some v -> i2 xs ys z x y = v.
(** Spec: the components of a table, by column *)
Definition table_comp (i j : nat) (p : string * lsfcol) : list comp :=
  match kind_of (fst p), snd p with Some k, Parms z => match at2 z i j with Ok v => [new_comp k (fst p) v] | Err _ => [] end | _, _ => [] end.
(** Spec: tables in which all columns have the shape given by the number of widths and wavelengths *)
Definition col_ok (nw nl : nat) (p : string * lsfcol) : Prop :=
  (fst p = "EE_FRACS"%string -> exists z, snd p = Frac z /\ rectangle nw nl z = true) /\
  (modelnames (fst p) = true -> exists z, snd p = Parms z /\ rectangle nw nl z = true).
Definition table_ok (row : lsfrow) : Prop := w_num_widths row = List.length (w_widths row) /\
  Forall (col_ok (List.length (w_widths row)) (List.length (w_lambdas row))) (w_cols row).
