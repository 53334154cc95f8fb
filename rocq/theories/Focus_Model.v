(** Best focus, resolving power by ray-trace and plot colors: models /repo/marxs/analysis/analysis.py:42-81, /repo/marxs/analysis/gratings.py:26-130,
    /repo/marxs/analysis/plots.py and /repo/marxs/design/rowland.py:39-75. Statistics and numerical optimization (astropy, scipy) are arguments. *)
From Verif Require Export Placement_Model Analysis_Model.
Open Scope R_scope.

(** ** A detector in the path of some photons *)
(** A photon: direction, position, probability, mirror shell *)
Record fphot := FP { f_dir : v4; f_ppos : v4; f_prob : R; f_shell : Z }.
(** The columns det_x, det_y of a photon list after a call of a FlatDetector with position [m] (optics/base.py:144-211). [old]: the columns as they are before, if they
    exist. If nothing is hit the list is returned as it is, and the column may not exist (KeyError when it is used). Photons that are not hit keep their values. *)
Fixpoint new_cols (m : m4) (ph : list fphot) (old : list (num * num)) : list (num * num) :=
  match ph, old with
  | p :: ph', o :: old' => (match plane_intersect m (f_dir p) (f_ppos p) with (true, _, Some (a, b)) => (Some a, Some b) | _ => o end) :: new_cols m ph' old'
  | _, _ => []
  end.
Definition hits (m : m4) (p : fphot) : bool := fst (fst (plane_intersect m (f_dir p) (f_ppos p))).
Definition det_columns (m : m4) (ph : list fphot) (old : option (list (num * num))) : result (list (num * num)) :=
  if existsb (hits m) ph then Ok (new_cols m ph (match old with Some o => o | None => repeat (None, None) (length ph) end))
  else match old with Some o => Ok o | None => Err KeyError end.
(** The photons after the call: those that hit are on the detector *)
Definition on_detector (m : m4) (p : fphot) : fphot :=
  match plane_intersect m (f_dir p) (f_ppos p) with (true, Some q, _) => FP (f_dir p) q (f_prob p) (f_shell p) | _ => p end.

(** ** analysis.py:42-81 [find_best_detector_position] *)
(** lines 74-76: the position of the detector for one try, from the keywords position, orientation and zoom (see Position_Model) *)
Definition try_position (orientation : m3) (x : R) : m4 := compose (app3 orientation (V3 x 0 0)) orientation (V3 100000 100000 100000).
(** lines 73-78: the photon list is copied for every try *)
Definition width (objective : list (num * num) -> result num) (orientation : m3) (ph : list fphot) (old : option (list (num * num))) (x : R) : result num :=
  bind (det_columns (try_position orientation x) ph old) objective.
(** Result: position of the minimum and photon list after the call *)
Definition find_best (minimize : (R -> result num) -> result R) objective orientation ph old : result (R * list fphot) :=
  bind (minimize (width objective orientation ph old)) (fun x => Ok (x, ph)).
(** analysis.py:27-38 [mean_width_2d] as objective; a nan makes the mean nan *)
Definition obj_mean (l : list (num * num)) : result num :=
  Ok (match sequence (map (fun p => match p with (Some a, Some b) => Ok (a, b) | _ => Err ValueError end) l) with Ok l => mean_width_2d l | Err _ => None end).
(** analysis.py:9-24 [sigma_clipped_std] on det_x; [std]: the standard deviation after clipping *)
Definition obj_std (std : list num -> num) (l : list (num * num)) : result num := Ok (std (map fst l)).

(** ** rowland.py:39-75 [find_radius_of_photon_shell]; [pct]: np.percentile of a list *)
Definition radius_at (c : num * num) : num := match c with (Some a, Some b) => Some (sqrt (a * a + b * b)) | _ => None end.
Definition shell_radii (shell : Z) (x : R) (ph : list fphot) (old : option (list (num * num))) : result (list num) :=
  bind (det_columns (compose (V3 x 0 0) id3 (V3 100000000 100000000 100000000)) ph old) (fun cols =>
  Ok (map (fun pc => radius_at (snd pc)) (filter (fun pc => Rltb 0 (f_prob (fst pc)) && Z.eqb (f_shell (fst pc)) shell)%bool (combine ph cols)))).
Definition find_radius_of_photon_shell (pct : list num -> R -> num) (shell : Z) (x : R) (percentile : list R) (ph : list fphot) old : result (list num) :=
  bind (shell_radii shell x ph old) (fun r => Ok (map (pct r) percentile)).

(** ** gratings.py:26-130 [resolvingpower_per_order] *)
Section PerOrder.
Variable Ph : Type.
Variable order_of : Ph -> Z.
Variable prob_of : Ph -> R.
(** ray-trace through the gratings: [trace sel photons], where [sel] are the orders that each element can select *)
Variable trace : list (list Z) -> list Ph -> list Ph.
(** column of the detector made of the torus (lines 89-95), of a detector that is passed in, and of a flat detector at the position x, with the search for this position *)
Variables torus_col user_col : list Ph -> result (list num).
Variable best : list Ph -> result R.
Variable flat_col : R -> list Ph -> result (list num).
(** mean and standard deviation of sigma_clipped_stats *)
Variable stats : list num -> num * num.
Inductive detspec := DNone | DTorus | DUser.
(** lines 84-110: position of order zero *)
Definition zero_order (det : detspec) (photons : list Ph) : result num :=
  match det with
  | DNone => Ok (Some 0)
  | DTorus => bind (torus_col photons) (fun c => Ok (fst (stats (map snd (filter (fun pc => Rltb 0 (prob_of (fst pc))) (combine photons c))))))
  | DUser => bind (user_col photons) (fun c => Ok (fst (stats c)))
  end.
(** lines 112-126: the column for one order *)
Definition order_column (det : detspec) (sel : list (list Z)) (photons : list Ph) (order : Z) : result (list num) :=
  let pg := filter (fun p => Z.eqb (order_of p) order && Rltb 0 (prob_of p))%bool (trace sel photons) in
  match det with
  | DNone => bind (best pg) (fun x => flat_col x pg)
  | DTorus => torus_col pg
  | DUser => user_col pg
  end.
(** The gratings: selectors of the elements and of the arguments for new elements *)
Record gas := Gas { g_sel : list (list Z); g_args : option (list Z) }.
Definition set_order (order : Z) (g : gas) : gas := Gas (map (fun _ => [order]) (g_sel g)) (Some [order]).
Definition num_abs (a : num) : num := match a with Some x => Some (Rabs x) | None => None end.
(** lines 127-129: FWHM and resolving power from the column *)
Definition line_result (zero : num) (c : list num) : num * num :=
  let fwhm := num_mul (Some (23548 / 10000)) (snd (stats c)) in (num_div (num_sub_abs (fst (stats c)) zero) (num_abs fwhm), fwhm).
Fixpoint order_loop (det : detspec) (zero : num) (photons : list Ph) (orders : list Z) (g : gas) : result (list (num * num) * gas) :=
  match orders with
  | [] => Ok ([], g)
  | o :: rest =>
      let g' := set_order o g in
      bind (order_column det (g_sel g') photons o) (fun c =>
      bind (order_loop det zero photons rest g') (fun r => Ok (line_result zero c :: fst r, snd r)))
  end.
(** Results: (res, fwhm) for each order, and the gratings after the call *)
Definition resolvingpower_per_order (det : detspec) (photons : list Ph) (orders : list Z) (g : gas) : result (list (num * num) * gas) :=
  bind (zero_order det photons) (fun zero => order_loop det zero photons orders g).
End PerOrder.

(** ** plots.py:5-36 [OrderColor]. [colors]: the colors of the color map at the points of np.linspace; the keywords for an order. Color [None] is black. *)
Definition n_colors (max_order : Z) : nat := Z.abs_nat (max_order + 1).
Record line_style {C} := Style { st_color : option C; st_solid : bool; st_lw : R; st_alpha : option R }.
Arguments line_style : clear implicits.
Definition order_color {C} (colors : list C) (order : Z) : result (line_style C) :=
  bind (if Z.eqb order 0 then Ok None else match nth_error colors (Z.abs_nat order) with Some c => Ok (Some c) | None => Err IndexError end) (fun color =>
  Ok (Style C color (order <=? 0)%Z (if Z.eqb order 0 then 4 else 2) (if Z.eqb order 0 then Some (7 / 10) else None))).

(** ** Spec *)
(** Spec: the ray goes through the point [F], not before its start *)
Definition through (F : v3) (p : fphot) : Prop := exists d q k, f_dir p = hom d 0 /\ f_ppos p = hom q 1 /\ 0 <= k /\ add3 q (scale3 k d) = F.
(** Spec: the ray meets the plane with normal [n] at distance [x] from the origin in the point [q] *)
Definition meets (n : v3) (x : R) (p : fphot) (q : v3) : Prop := exists d s k, f_dir p = hom d 0 /\ f_ppos p = hom s 1 /\ 0 <= k /\ q = add3 s (scale3 k d) /\ dot3 n q = x /\ dot3 n d <> 0.
