(** Changing gratings and plotting tolerances: models /repo/marxs/design/tolerancing.py:26-41, 174-220, 552-707 and
    /repo/marxs/optics/grating.py:209-220. Of an element only the period and the order selector are kept. matplotlib is left out: a plot is
    the list of its lines and the texts. Tables are lists of rows; all rows have the same columns, and a table without rows has no lines. *)
From Verif Require Export Base Vec_Model Angles_Model Grating_Model Tol_Model.
From Coq Require Import Ascii.
Open Scope R_scope.

(** ** One or more elements *)
Section ForEach.
Context {S E : Type}.
(** tolerancing.py:26-41 [oneormoreelements]: a function that changes an element (and the world [S], i.e. the random numbers), for each element *)
Fixpoint for_each (f : S -> E -> S * E * option err) (s : S) (es : list E) : S * list E * option err :=
  match es with
  | [] => (s, [], None)
  | e :: rest =>
      let '(s1, e1, x) := f s e in
      match x with
      | Some x => (s1, e1 :: rest, Some x)
      | None => let '(s2, r, y) := for_each f s1 rest in (s2, e1 :: r, y)
      end
  end.
End ForEach.

(** ** Gratings *)
(** the attribute [_d]: a number, or a function of the place on the grating *)
Inductive period := Const (d : R) | Chirp (f : R * R -> R).
(** grating.py:209-220 [FlatGrating.d] *)
Definition d_at (p : period) (intercoos : R * R) : R := match p with Const d => d | Chirp f => f intercoos end.
(** [V]: order selectors; [None]: there is no such attribute *)
Record elem (V : Type) := Elem { e_d : option period; e_sel : option V }.
Arguments Elem {V} e_d e_sel.
Arguments e_d {V} e.
Arguments e_sel {V} e.
(** tolerancing.py:174-199 [varyperiod]; the random numbers: standard normal draws, numpy refuses a negative sigma *)
Definition varyperiod1 {V} (mean sigma : R) (z : list R) (e : elem V) : list R * elem V * option err :=
  match e_d e with
  | None => (z, e, Some ValueError)
  | Some _ =>
      if Rltb sigma 0 then (z, e, Some ValueError)
      else match z with [] => (z, e, Some ValueError) | x :: z' => (z', Elem (Some (Const (mean + sigma * x))) (e_sel e), None) end
  end.
Definition varyperiod {V} (mean sigma : R) (z : list R) (es : list (elem V)) := for_each (varyperiod1 mean sigma) z es.
(** tolerancing.py:202-220 [varyorderselector]; [make]: the call of the class, a new object or an exception *)
Definition varyorderselector1 {V S} (make : S -> S * result V) (s : S) (e : elem V) : S * elem V * option err :=
  match e_sel e with
  | None => (s, e, Some ValueError)
  | Some _ => let '(s', r) := make s in match r with Ok v => (s', Elem (e_d e) (Some v), None) | Err x => (s', e, Some x) end
  end.
Definition varyorderselector {V S} (make : S -> S * result V) (s : S) (es : list (elem V)) := for_each (varyorderselector1 make) s es.
(** grating.py:222-277 with this period (C04) *)
Definition elem_diffract {V} (c : convention) (transmission : bool) (mat : m4) (groove : R) (e : elem V) (intercoos : R * R) (dir : v3) (m : Z) (wave : R) : option (v3 * option R) :=
  match e_d e with Some p => grating c transmission mat groove dir m wave (d_at p intercoos) | None => None end.

(** ** Plots *)
Definition row := dict R.
Definition col (k : string) (r : row) : R := match dget k r with Some v => v | None => 0 end.
Definition has (k : string) (t : list row) : bool := forallb (fun r => din k r) t.
(** [t.sort(par)] *)
Fixpoint ins_by (k : string) (x : row) (l : list row) : list row := match l with [] => [x] | y :: r => if Rleb (col k x) (col k y) then x :: l else y :: ins_by k x r end.
Definition sort_by (k : string) (l : list row) : list row := fold_right (ins_by k) [] l.
(** [t.group_by('wave')]: the different values in order, and for each the rows with this value *)
Fixpoint ins_val (x : R) (l : list R) : list R := match l with [] => [x] | y :: r => if Rltb x y then x :: l else if Rltb y x then y :: ins_val x r else l end.
Definition values (l : list R) : list R := fold_right ins_val [] l.
Definition groups (k : string) (t : list row) : list (R * list row) := map (fun w => (w, filter (fun r => Reqb (col k r) w) t)) (values (map (col k) t)).
(** [np.rad2deg] *)
Definition rad2deg (x : R) : R := x * 180 / PI.
(** a line: the wavelength, and the points with the coordinate on the axis *)
Definition line : Type := R * list (R * row).
Record panel := Panel { p_lines : list line; p_xlabel : string; p_title : option string; p_face : string }.
Definition first_char (s : string) : option ascii := match s with EmptyString => None | String c _ => Some c end.
Definition second (s : string) : result string := match s with String _ (String c _) => Ok (String c EmptyString) | _ => Err IndexError end.
Definition is_r (par : string) : bool := match first_char par with Some c => Ascii.eqb c "r" | None => false end.
Definition is_d (par : string) : bool := match first_char par with Some c => Ascii.eqb c "d" | None => false end.
(** is there a second axis? tolerancing.py:607-616: with an axis, or without label for a second one, the name
    matplotlib.axes.SubplotBase is needed ([subplotbase]: matplotlib has it) *)
Definition second_axis (subplotbase axt_given y2label : bool) : result bool :=
  if (negb axt_given && y2label)%bool then Ok true else if subplotbase then Ok axt_given else Err AttributeError.
(** tolerancing.py:574-640 [plot_wiggle]; [extra]: names of keyword arguments that are passed to plot_one_line, which [accepts] some of them *)
Definition plot_wiggle (subplotbase axt_given y2label : bool) (accepts : list string) (tab : list row) (par : string) (parlist : list string) (face : string) (extra : list string) : result panel :=
  bind (select_1dof_changed tab par parlist) (fun t =>
  if negb (has par t) then Err KeyError else
  let t := sort_by par t in
  if negb (has "wave" t) then Err KeyError else
  let g := groups "wave" t in
  bind (second_axis subplotbase axt_given y2label) (fun _ =>
  match first_char par with
  | None => Err IndexError
  | Some _ =>
      let lines := map (fun g => (fst g, map (fun r => ((if is_r par then rad2deg (col par r) else col par r), r)) (snd g))) g in
      bind (match g with _ :: _ => if forallb (fun k => inb k accepts) extra then Ok tt else Err TypeError | [] => Ok tt end) (fun _ =>
      if is_d par then bind (second par) (fun c => Ok (Panel lines "shift [mm]" (Some (String.append "Shift along " c)) face))
      else if is_r par then bind (second par) (fun c => Ok (Panel lines "Rotation [degree]" (Some (String.append "Rotation around " c)) face))
      else Ok (Panel lines par None face))
  end)).
(** tolerancing.py:645-695 [load_and_plot] after the table was read. [n in filename]: *)
Definition contains (n s : string) : bool := match String.index 0 n s with Some _ => true | None => false end.
(** tolerancing.py:565-566 *)
Definition bg_colors : dict string := [("global", "0.9"); ("individual", "(1.0, 0.9, 0.9)")]%string.
(** tolerancing.py:684-687; keyword arguments with their values *)
Definition choose_face (bg : dict string) (filename : string) (kwargs : dict string) : dict string :=
  if din "axis_facecolor" kwargs then kwargs
  else fold_left (fun kw nc => if contains (fst nc) filename then dset "axes_facecolor" (snd nc) kw else kw) bg kwargs.
(** tolerancing.py:691-693: a figure has six places *)
Fixpoint panels (one : string -> result panel) (i : nat) (pars : list string) : result (list panel) :=
  match pars with
  | [] => Ok []
  | par :: rest => if Nat.ltb 6 (i + 1) then Err ValueError else bind (one par) (fun p => bind (panels one (S i) rest) (fun l => Ok (p :: l)))
  end.
Definition load_and_plot (subplotbase y2label : bool) (accepts : list string) (bg : dict string) (filename : string) (tab : list row) (parlist : list string) (kwargs : dict string) : result (list panel) :=
  let kw := choose_face bg filename kwargs in
  let face := match dget "axes_facecolor" kw with Some c => c | None => "w"%string end in
  let extra := filter (fun k => negb (inb k ["axes_facecolor"; "axt"]%string)) (dkeys kw) in
  panels (fun par => plot_wiggle subplotbase (din "axt" kw) y2label accepts tab par parlist face extra) 0 parlist.
(** tolerancing.py:698-707: the arguments of [DispersedWigglePlotter.plot_one_line]; there is a label for the second axis *)
Definition dispersed_accepts : list string := ["R_col"; "Aeff_col"]%string.

(** ** Spec *)
(** Spec: a row in which no parameter but [par] is changed *)
Definition only (par : string) (parlist : list string) (r : row) : Prop := forall q, In q parlist -> q <> par -> dget q r = Some 0.
(** Spec: one text is a part of the other *)
Definition part_of (n s : string) : Prop := exists a b, s = (a ++ n ++ b)%string.
