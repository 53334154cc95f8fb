(** Plots and README for order sorting: models /repo/marxs/reduction/osip.py:210-394 (plots and what is left of apply_osip_all) and
    /repo/marxs/missions/arcus/arfrmf.py:283-317 (write_readme), with python's string.Template. A plot is the list of its curves with their labels;
    colors and line styles are left out. Text is ASCII. *)
From Coq Require Import Ascii.
From Verif Require Export Osip_Model ArcusArf_Model Analysis_Model.
Open Scope string_scope.
Open Scope list_scope.
Open Scope R_scope.

(** ** Plots *)
(** What osip_factor returns for an array of energies: an array, or just the number 0 *)
Inductive curve := Number (x : R) | Curve (l : list R).
(** osip.py:115-147 for the energies [ens] *)
Definition factor_curve (osip_range : R -> Z -> R * R) (cdf : R -> R -> R) (ens : list R) (nominal true_order : Z) : result curve :=
  if negb (Z.eqb (Z.sgn nominal) (Z.sgn true_order)) then Ok (Number 0)
  else bind (sequence (map (fun e => osip_factor osip_range cdf e nominal true_order) ens)) (fun l => Ok (Curve l)).
(** [ax.plot(grid, y)]: x and y must have the same length. A number is an array with one entry. *)
Definition draw (grid : list R) (label : string) (c : curve) : result (string * list R) :=
  let l := match c with Number x => [x] | Curve l => l end in
  if Nat.eqb (List.length grid) (List.length l) then Ok (label, l) else Err ValueError.
(** [cm += c], [cm] is an array as the main order is on the same side as itself *)
Definition add_curve (cm : list R) (c : curve) : list R :=
  match c with Number x => map (fun y => y + x) cm | Curve l => map (fun p => fst p + snd p) (combine cm l) end.
(** osip.py:255-267: curves for the offsets. The grid is in wavelength, [ens] the energies of [order] there. Simplification: the curve for the main
    order is the one drawn, matplotlib has a copy of it. *)
Fixpoint contaminants osip_range cdf (grid ens : list R) (order : Z) (offsets : list Z) (cm : list R) : result (list (string * list R) * list R) :=
  match offsets with
  | [] => Ok ([], cm)
  | o :: offsets =>
      if Z.eqb o 0 then contaminants osip_range cdf grid ens order offsets cm
      else bind (factor_curve osip_range cdf ens order (order + o)) (fun c =>
           bind (draw grid (String.append "contam " (str_int o)) c) (fun d =>
           bind (contaminants osip_range cdf grid ens order offsets (add_curve cm c)) (fun r => Ok (d :: fst r, snd r))))
  end.
(** osip.py:241-273 [plot_mixture]; [hc]: wavelength times energy. *)
Definition mix_energies (hc : R) (grid : list R) (order : Z) : list R := map (fun l => hc / (l / IZR (Z.abs order))) grid.
Definition plot_mixture osip_range cdf hc (grid : list R) (order : Z) (offsets : list Z) : result (list (string * list R)) :=
  let ens := mix_energies hc grid order in
  bind (factor_curve osip_range cdf ens order order) (fun c =>
  bind (draw grid "main order" c) (fun d =>
  bind (contaminants osip_range cdf grid ens order offsets (snd d)) (fun r =>
  Ok (d :: fst r ++ [("sum", snd r)])))).
(** osip.py:289: the order in the middle of the list *)
Definition mid_order (orders : list Z) : result Z := match nth_error orders (List.length orders / 2) with Some o => Ok o | None => Err IndexError end.
(** osip.py:335-394 [apply_osip_all]: files that are in the output directory afterwards (the pairs of orders of the ARFs and the names of plots) and
    whether there is an exception. [grid]: wavelengths of the last ARF times its order. *)
Definition apply_osip_all osip_range cdf hc (grid : list R) (offsets : list Z) (exists_in : Z -> bool) (orders : list Z) : (list (Z * Z) * list string) * option err :=
  let files := osip_pairs offsets exists_in orders in
  match files with
  | [] => ((files, []), None)
  | _ :: _ => match bind (mid_order orders) (fun o => plot_mixture osip_range cdf hc grid o offsets) with
              | Err e => ((files, []), Some e)
              | Ok _ => ((files, ["OSIP_regions.pdf"; "ARF_sum.pdf"]), None)
              end
  end.
(** osip.py:305-333 [plot_summed_arf]: area at wavelength [w], for the ARFs in the directory. An ARF: pairs of BIN_LO and SPECRESP, sorted by energy *)
Fixpoint summed_arf (arfs : list (list (R * R))) (w : R) : result R :=
  match arfs with
  | [] => Ok 0
  | a :: arfs => bind (interp (rev a) w) (fun x => bind (summed_arf arfs w) (fun s => Ok (x + s)))
  end.

(** ** string.Template.substitute *)
Definition id_start (c : ascii) : bool :=
  let n := nat_of_ascii c in ((65 <=? n) && (n <=? 90) || (97 <=? n) && (n <=? 122) || (n =? 95))%nat.
Definition id_char (c : ascii) : bool := id_start c || ((48 <=? nat_of_ascii c) && (nat_of_ascii c <=? 57))%nat.
Definition snoc (s : string) (c : ascii) : string := String.append s (String c EmptyString).
(** Text, after a dollar, in a name, in a name in braces *)
Inductive tstate := Plain | Dollar | Ident (name : string) | Brace (name : string).
Definition dollar : ascii := "$"%char.
Definition lookup (d : dict string) (n : string) : result string := match dget n d with Some v => Ok v | None => Err KeyError end.
Fixpoint substitute (d : dict string) (st : tstate) (s : string) : result string :=
  match s with
  | EmptyString => match st with Plain => Ok EmptyString | Ident n => lookup d n | Dollar | Brace _ => Err ValueError end
  | String c s =>
      match st with
      | Plain => if Ascii.eqb c dollar then substitute d Dollar s else bind (substitute d Plain s) (fun r => Ok (String c r))
      | Dollar => if Ascii.eqb c dollar then bind (substitute d Plain s) (fun r => Ok (String c r))
                  else if id_start c then substitute d (Ident (String c EmptyString)) s
                  else if Ascii.eqb c "{"%char then substitute d (Brace EmptyString) s
                  else Err ValueError
      | Ident n => if id_char c then substitute d (Ident (snoc n c)) s
                   else bind (lookup d n) (fun v =>
                        if Ascii.eqb c dollar then bind (substitute d Dollar s) (fun r => Ok (String.append v r))
                        else bind (substitute d Plain s) (fun r => Ok (String.append v (String c r))))
      | Brace n => if Ascii.eqb c "}"%char then
                     match n with EmptyString => Err ValueError | _ => bind (lookup d n) (fun v => bind (substitute d Plain s) (fun r => Ok (String.append v r))) end
                   else if (match n with EmptyString => id_start c | _ => id_char c end) then substitute d (Brace (snoc n c)) s
                   else Err ValueError
      end
  end.
(** Spec: a template is text and names; how it is written and what it means *)
Inductive piece := Text (s : string) | Name (n : string).
Fixpoint render (l : list piece) : string :=
  match l with [] => "" | Text s :: l => String.append s (render l) | Name n :: l => String.append (String dollar n) (render l) end.
Fixpoint meaning (d : dict string) (l : list piece) : result string :=
  match l with
  | [] => Ok ""
  | Text s :: l => bind (meaning d l) (fun r => Ok (String.append s r))
  | Name n :: l => bind (lookup d n) (fun v => bind (meaning d l) (fun r => Ok (String.append v r)))
  end.
(** Spec: text without dollars, names that are identifiers, and no name runs into what comes after it *)
Fixpoint all_chars (f : ascii -> bool) (s : string) : bool := match s with EmptyString => true | String c s => f c && all_chars f s end.
Definition no_dollar (s : string) : bool := all_chars (fun c => negb (Ascii.eqb c dollar)) s.
Definition identifier (s : string) : bool := match s with EmptyString => false | String c s => id_start c && all_chars id_char s end.
Definition ends_name (l : list piece) : bool := match render l with EmptyString => true | String c _ => negb (id_char c) end.
Fixpoint template_ok (l : list piece) : bool :=
  match l with
  | [] => true
  | Text s :: l => no_dollar s && template_ok l
  | Name n :: l => identifier n && ends_name l && template_ok l
  end.

(** ** arfrmf.py:283-317 [write_readme] *)
(** arfrmf.py:296-304: meta information; a value is text or a tuple of a value and a comment. Simplification: both printed as text. *)
Inductive metaval := MStr (s : string) | MTuple (l : list string) | MNumber.
Definition newline : string := String (ascii_of_nat 10) EmptyString.
Definition meta_line (kv : string * metaval) : result string :=
  match snd kv with
  | MStr s => Ok (String.append (fst kv) (String.append ": " (String.append s newline)))
  | MTuple (a :: b :: _) => Ok (String.append (fst kv) (String.append ": " (String.append a (String.append "   // " (String.append b newline)))))
  | MTuple _ => Err IndexError
  | MNumber => Err TypeError
  end.
Fixpoint tagstring (meta : dict metaval) : result string :=
  match meta with [] => Ok "" | kv :: meta => bind (meta_line kv) (fun a => bind (tagstring meta) (fun r => Ok (String.append a r))) end.
(** arfrmf.py:310-315; [str_list]: the list of offsets as text *)
Definition readme_values (meta : dict metaval) (description offsets : string) (arcchan : string) : result (dict string) :=
  let name true_order := arcus_filename "arf" [("ARCCHAN", KStr arcchan); ("ORDER", KInt (-4)); ("CCDORDER", KInt (-4)); ("TRUEORD", KInt true_order)] in
  bind (tagstring meta) (fun tag => bind (name (-4)%Z) (fun n0 => bind (name (-5)%Z) (fun n1 => bind (name (-3)%Z) (fun n2 =>
  Ok [("tagversion", tag); ("description", description); ("offsetorders", offsets); ("filenamemain", n0); ("filenameupper", n1); ("filenamelower", n2)])))).
(** [outroot] is an argument that is not used *)
Definition write_readme (template : string) (meta : dict metaval) (description offsets : string) (outroot arcchan : string) : result string :=
  bind (readme_values meta description offsets arcchan) (fun d => substitute d Plain template).
(** data/osip_template.md: seven pieces of text, the names between them. *)
Definition osip_template (t0 t1 t2 t3 t4 t5 t6 : string) : list piece :=
  [Text t0; Name "description"; Text t1; Name "offsetorders"; Text t2; Name "filenamemain"; Text t3; Name "filenameupper"; Text t4; Name "filenamelower"; Text t5; Name "tagversion"; Text t6].
(** file written by apply_osip for Arcus (osip.py:195-207 with arfrmf.py:18-33), the orders are text in the header *)
Definition arcus_out_name (outroot arcchan : string) (m order : Z) : result string :=
  bind (arcus_filename "arf" [("ARCCHAN", KStr arcchan); ("ORDER", KInt m); ("TRUEORD", KStr (str_int m)); ("CCDORDER", KStr (str_int order))]) (fun n => Ok (String.append outroot n)).
