(** Analysis of a grid of simulations of Arcus: models /repo/marxs/missions/arcus/analyze_grid.py. Statistics (astropy), reading and writing of files are arguments or
    values. *)
From Verif Require Export Meta_Model Fits_Model ArcusSpo_Model Analysis_Model.
Open Scope R_scope.

(** The parts of the configuration that are used: pos_opt_ax, radius r of rowland_detector and of rowland_central, blaze angle (rad) *)
Record gconf := GConf { gc_axes : dict v4; gc_r : R; gc_rc : R; gc_blaze : R }.

(** ** Lines 17-44 [zeropos]; [np.arcsin] is nan outside of [-1, 1] *)
Definition np_arcsin (x : R) : num := if Rleb (Rabs x) 1 then Some (asin x) else None.
Definition zeropos (coord channel : string) (conf : gconf) : result num :=
  if String.eqb coord "circ_phi" then bind (lookup channel (gc_axes conf)) (fun ax => Ok (np_arcsin (x4 ax / gc_r conf)))
  else if String.eqb coord "circ_y" then bind (lookup channel (gc_axes conf)) (fun ax => Ok (Some (- y4 ax)))
  else if String.eqb coord "proj_y" then bind (lookup channel (gc_axes conf)) (fun ax => Ok (Some (y4 ax)))
  else if String.eqb coord "proj_x" then bind (lookup channel (gc_axes conf)) (fun ax => Ok (Some (x4 ax)))
  else Err NotImplementedError.

(** ** Lines 47-108 [analyze_sim] *)
(** A photon: number of the mirror it came through (column xou), order of the L1 support, the rest *)
Record gphot := GP { g_xou : Z; g_L1 : Z; g_ph : aphot }.
(** [np.digitize(x, bins)] for ascending bins *)
Fixpoint digitize (x : Z) (bins : list Z) : nat := match bins with [] => O | b :: r => if (x <? b)%Z then O else S (digitize x r) end.
Definition aper_id (p : gphot) : nat := digitize (g_xou p) (map snd id_num_offset).
(** A photon list with its header. The numbers of the header are kept apart from the texts: area, exposure time, energy. *)
Record sim := Sim { s_name : string; s_photons : list gphot; s_en : option (list (option Q)); s_meta : dict hval;
  s_area : option R; s_exposure : option R; s_energy : option R }.
Definition meta_keywords : list string := ["ORIGIN"; "CREATOR"; "MARXSVER"; "MARXSGIT"; "MARXSTIM"]%string.
Definition need {V} (o : option V) : result V := match o with Some v => Ok v | None => Err KeyError end.
(** lines 91-93: the photons of the channel number [a] that are not dispersed by the L1 support *)
Definition channel_photons (a : nat) (l : list gphot) : list aphot :=
  map g_ph (filter (fun p => Nat.eqb (aper_id p) a && Z.eqb (g_L1 p) 0)%bool l).
(** lines 91-107: one turn of the loop: R and effective area for each order. [int(EXPOSURE)] for exposures that are not negative. With a zero position that
    is nan all R are nan. *)
Definition analyze_channel (stats : list num -> num * num) (conf : gconf) (orders : list Z) (s : sim) (ac : nat * string) : result (list num * list R) :=
  bind (need (s_area s)) (fun A => bind (zeropos "circ_phi" (snd ac) conf) (fun z => bind (need (s_exposure s)) (fun e =>
  bind (capture stats on_ccd A orders (Some (match z with Some z => z | None => 0 end)) (channel_photons (fst ac) (s_photons s)) (Some (Z.to_nat (Rfloor e)))) (fun c =>
  Ok (match z with Some _ => Rper c | None => repeat None (List.length orders) end, Aeff c))))).
Definition analyze_sim (stats : list num -> num * num) (conf : gconf) (orders : list Z) (reference : option (dict hval)) (s : sim) : result (list (list num * list R)) :=
  bind (match reference with Some m => check_meta (s_meta s) m meta_keywords true | None => Ok tt end) (fun _ =>
  bind (check_energy (s_en s)) (fun _ =>
  sequence (map (analyze_channel stats conf orders s) (combine (seq 1 4) (map fst id_num_offset))))).

(** ** Lines 111-170 [aeffRfromraygrid] *)
(** [average_R_Aeff] over the channels, for the order number [j] *)
Definition over_channels (ch : list (list num * list R)) (j : nat) : num * R :=
  average_R_Aeff (map (fun c => nth j (fst c) None) ch) (map (fun c => nth j (snd c) 0) ch).
(** lines 153-155. [orders != 0] is an array of bool for an array, but the constant True for a list; indexing with it adds a dimension of size one, over which
    the average is done *)
Inductive disp := Total (v : num * R) | PerOrder (v : list (num * R)).
Definition dispersed (as_array : bool) (orders : list Z) (four : list (num * R)) : disp :=
  if as_array then Total (average_R_Aeff (select orders (fun z => negb (Z.eqb z 0)) (map fst four)) (select orders (fun z => negb (Z.eqb z 0)) (map snd four)))
  else PerOrder (map (fun v => average_R_Aeff [fst v] [snd v]) four).
Record gridrow := GRow { gr_energy : R; gr_wave : R; gr_each : list (list num * list R); gr_four : list (num * R); gr_disp : disp }.
(** Values of the header of the table *)
Inductive mval := MText (h : hval) | MNum (r : R) | MOrder (z : Z).
Definition order_key (i : nat) : string := String.append "ORDER_" (str_int (Z.of_nat i)).
Definition sim_header (s : sim) : dict mval :=
  (map (fun kv => (fst kv, MText (snd kv))) (s_meta s)
   ++ match s_area s with Some a => [("A_GEOM"%string, MNum a)] | None => [] end
   ++ match s_exposure s with Some a => [("EXPOSURE"%string, MNum a)] | None => [] end
   ++ match s_energy s with Some a => [("ENERGY"%string, MNum a)] | None => [] end)%list.
Definition add_orders (h : dict mval) (orders : list Z) : dict mval :=
  fold_left (fun h io => dset (order_key (fst io)) (MOrder (snd io)) h) (combine (seq 0 (List.length orders)) orders) h.
(** sorted by name *)
Fixpoint insert_sim (s : sim) (l : list sim) : list sim := match l with [] => [s] | t :: r => if String.leb (s_name s) (s_name t) then s :: l else t :: insert_sim s r end.
Definition sort_sims (l : list sim) : list sim := fold_right insert_sim [] l.
Definition grid_row (stats : list num -> num * num) (conf : gconf) (orders : list Z) (as_array : bool) (hc : R) (reference : option (dict hval)) (s : sim) : result gridrow :=
  bind (analyze_sim stats conf orders reference s) (fun ch => bind (need (s_energy s)) (fun e =>
  let four := map (over_channels ch) (seq 0 (List.length orders)) in
  Ok (GRow e (hc / e) ch four (dispersed as_array orders four)))).
(** [files]: the matching files in the directory, in any order *)
Definition aeffRfromraygrid (stats : list num -> num * num) (conf : gconf) (orders : list Z) (as_array allow_inconsistent_meta : bool) (hc : R) (files : list sim)
  : result (list gridrow * dict mval) :=
  match sort_sims files with
  | [] => Err IndexError
  | r0 :: _ =>
      bind (sequence (map (grid_row stats conf orders as_array hc (if allow_inconsistent_meta then None else Some (s_meta r0))) (sort_sims files))) (fun rows =>
      Ok (rows, add_orders (sim_header r0) orders))
  end.
(** ** Lines 173-179 [orders_from_meta]. The loop ends at the first missing number, so after at most as many turns as there are keys. *)
Fixpoint collect_orders (fuel i : nat) (h : dict mval) : list mval :=
  match fuel with
  | O => []
  | S f => match dget (order_key i) h with Some v => v :: collect_orders f (S i) h | None => [] end
  end.
Definition orders_from_meta (h : dict mval) : list mval := collect_orders (List.length h) 0 h.
(** ** Lines 182-193 [csv_per_order] for a column with one row of [width] numbers per simulation: names of the columns and rows *)
Definition order_name (v : mval) : string := match v with MOrder z => String.append "order_" (str_int z) | MNum _ | MText _ => "order_"%string end.
Definition csv_per_order (h : dict mval) (wave : list R) (width : nat) (col : list (list num)) : result (list string * list (R * list num)) :=
  let names := map order_name (orders_from_meta h) in
  if negb (Nat.eqb (List.length names) width) then Err ValueError else Ok ("wave"%string :: names, combine wave col).

(** ** Lines 196-221 [tg_resolve_events_circdet] for one photon: tg_r, tg_d, tg_mlam. [module_conf]: configuration of the module, used by the call of [zeropos] without
    configuration; [period]: mean period of the facets. Angles are in rad here (degree in the table). *)
Record tg := TG { tg_r : num; tg_d : num; tg_mlam : num }.
Definition num2 (f : R -> R -> R) (a b : num) : num := match a, b with Some x, Some y => Some (f x y) | _, _ => None end.
Definition num1 (f : R -> R) (a : num) : num := match a with Some x => Some (f x) | None => None end.
Definition num_atan (n : num) (dy : R) (l : num) : num := match l with Some l => if Reqb l 0 then n else Some (atan (dy / l)) | None => None end.
(** [np.arctan(dy / 0)] is a right angle with the sign of dy, nan for 0 *)
Definition atan_zero (dy : R) : num := if Reqb dy 0 then None else if Rltb 0 dy then Some (PI / 2) else Some (- (PI / 2)).
Definition tg_resolve (module_conf conf : gconf) (period : R) (channel : string) (circ_phi circ_y : num) : result tg :=
  bind (zeropos "circ_phi" channel module_conf) (fun ang_r0 =>
  let tr := num2 (fun a p => - (a - p) / 2) ang_r0 circ_phi in
  let l := num2 (fun a p => 2 * gc_rc conf * cos (a - p)) ang_r0 circ_phi in
  bind (lookup channel (gc_axes conf)) (fun ax =>
  let dy := num1 (fun y => y4 ax - y) circ_y in
  Ok (TG tr (match dy with Some dy => num_atan (atan_zero dy) dy l | None => None end) (num1 (fun t => cos (gc_blaze conf) * period * sin t) tr)))).

(** ** Spec *)
(** Spec: the configuration for a double Rowland design, as made at arcus.py:41-47 *)
Definition conf_of (g : double_rowland) (blaze : R) : gconf :=
  GConf (map (fun kv => (fst kv, app4 xyz2zxy (snd kv))) (dr_opt_ax g)) (tr (dr_detector g)) (tr (dr_central g)) blaze.
(** Spec: a photon counts for the effective area of an order *)
Definition counts (p : gphot) (o : Z) : bool := (Z.eqb (g_L1 p) 0 && (0 <=? a_ccd (g_ph p))%Z && Z.eqb (a_order (g_ph p)) o)%bool.
(** Spec: place on the detector circle of radius [r] with center at height [h], in the plane of dispersion *)
Definition place_at (r h a : R) : R * R := (r * sin a, h - r * cos a).
(** Spec: cross product and scalar product of the ways from [g] to [a] and to [b] in the plane *)
Definition cross_from (g a b : R * R) : R := (fst a - fst g) * (snd b - snd g) - (snd a - snd g) * (fst b - fst g).
Definition dot_from (g a b : R * R) : R := (fst a - fst g) * (fst b - fst g) + (snd a - snd g) * (snd b - snd g).
