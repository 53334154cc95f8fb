(** Analysis of photon lists: models /repo/marxs/analysis/gratings.py:133-501, /repo/marxs/analysis/analysis.py:27-111 and
    /repo/marxs/analysis/coords.py. Sigma clipped statistics (astropy) are an argument. *)
From Verif Require Export Angles_Model Cylinder_Model Plane_Model Coords_Model Osip_Model.
Open Scope R_scope.

(** A photon: order, probability, dispersion coordinate ([None]: not finite or masked), value of the filter column *)
Record aphot := AP { a_order : Z; a_prob : R; a_coord : num; a_ccd : Z }.

(** ** Areas *)
(** gratings.py:360-363 [effectivearea_from_photonlist]; n_photons = 0 gives nan *)
Definition prob_in (photons : list aphot) (o : Z) : R := Rsum (map a_prob (filter (fun p => Z.eqb (a_order p) o) photons)).
Definition effectivearea (photons : list aphot) (orders : list Z) (n : nat) (A_geom : R) : list num :=
  map (fun o => num_mul (num_div (Some (prob_in photons o)) (Some (INR n))) (Some A_geom)) orders.
(** analysis.py:84-111 [detected_fraction] *)
Definition detected_fraction (photons : list aphot) (labels : list Z) : list num :=
  map (fun o => num_div (Some (prob_in photons o)) (Some (INR (length photons)))) labels.

(** ** Averages *)
(** [np.ma.average] of pairs (value, weight) without masked values; [None]: masked *)
Definition wavg (l : list (R * R)) : num := num_div (Some (Rsum (map (fun p => fst p * snd p) l))) (Some (Rsum (map snd l))).
(** the entries that are not masked, [np.ma.masked_invalid] *)
Fixpoint valid (r : list num) (w : list R) : list (R * R) :=
  match r, w with
  | Some x :: r', a :: w' => (x, a) :: valid r' w'
  | None :: r', _ :: w' => valid r' w'
  | _, _ => []
  end.
(** gratings.py:209-212 [average_R_Aeff] for axis=None and finite areas. The docstring lists the two results in the other order. *)
Definition average_R_Aeff (r : list num) (aeff : list R) : num * R := (wavg (valid r aeff), Rsum aeff).

(** [np.interp(x, xp, fp)] for ascending [xp] *)
Fixpoint interp_seg (x x0 y0 : R) (r : list (R * R)) : R :=
  match r with
  | [] => y0
  | (x1, y1) :: r' => if Rltb x x1 then (y1 - y0) / (x1 - x0) * (x - x0) + y0 else interp_seg x x1 y1 r'
  end.
Definition interp (pts : list (R * R)) (x : R) : result R :=
  match pts with [] => Err ValueError | (x0, y0) :: r => Ok (if Rltb x x0 then y0 else interp_seg x x0 y0 r) end.
(** [np.argsort] of the energies, applied to energies and values *)
Fixpoint insP (p : R * R) (l : list (R * R)) : list (R * R) :=
  match l with [] => [p] | q :: r => if Rltb (fst p) (fst q) then p :: l else q :: insP p r end.
Definition sortP (l : list (R * R)) : list (R * R) := fold_right insP [] l.
(** gratings.py:133-178 [weighted_per_order]. [eff]: rows (energy, probability for each order in [eff_orders]). [data]: one row per order. *)
Fixpoint positions (o : Z) (l : list Z) (i : nat) : list nat :=
  match l with [] => [] | x :: r => if Z.eqb x o then i :: positions o r (S i) else positions o r (S i) end.
Definition eff_points (eff : list (R * list R)) (j : nat) : list (R * R) := sortP (map (fun row => (fst row, nth j (snd row) 0)) eff).
Definition order_weights (eff_orders : list Z) (eff : list (R * list R)) (energy : list R) (o : Z) : result (list R) :=
  match positions o eff_orders 0 with
  | [j] => sequence (map (interp (eff_points eff j)) energy)
  | _ => Err KeyError
  end.
Definition weighted_per_order (data : list (list R)) (orders : list Z) (energy : list R) (eff_orders : list Z) (eff : list (R * list R)) : result (list num) :=
  if negb (Nat.eqb (length orders) (length data)) then Err ValueError
  else if negb (forallb (fun row => Nat.eqb (length energy) (length row)) data) then Err ValueError
  else bind (sequence (map (order_weights eff_orders eff energy) orders)) (fun weights =>
    Ok (map (fun k => wavg (combine (map (fun row => nth k row 0) data) (map (fun row => nth k row 0) weights))) (seq 0 (length energy)))).

(** ** Resolving power *)
Definition coords_of (photons : list aphot) (o : Z) : list num := map a_coord (filter (fun p => Z.eqb (a_order p) o) photons).
Definition num_sub_abs (a b : num) : num := match a, b with Some x, Some y => Some (Rabs (x - y)) | _, _ => None end.
(** gratings.py:215-270 [resolvingpower_from_photonlist]. [stats]: mean and standard deviation of [sigma_clipped_stats]. Result for each order: resolving power,
    position, standard deviation. *)
Definition line_stats (stats : list num -> num * num) (photons : list aphot) (o : Z) : num * num :=
  let l := coords_of photons o in if Nat.ltb 20 (length l) then stats l else (None, None).
Definition resolvingpower (stats : list num -> num * num) (photons : list aphot) (orders : list Z) (zeropos : option R) : result (list (num * num * num)) :=
  bind (match zeropos with
        | Some z => Ok (Some z)
        | None => let l := coords_of photons 0 in if Nat.ltb (length l) 20 then Err AnalysisError else Ok (fst (stats l))
        end) (fun zero =>
  Ok (map (fun o => let '(pos, std) := line_stats stats photons o in
                    (num_div (num_sub_abs pos zero) (num_mul std (Some (23548 / 10000))), pos, std)) orders)).
(** [np.argmin]: the first nan if there is one, else the first smallest number *)
Fixpoint argmin_num (l : list num) (i best : nat) (bv : num) : nat :=
  match bv with
  | None => best
  | Some b => match l with
              | [] => best
              | None :: _ => i
              | Some x :: r => if Rltb x b then argmin_num r (S i) i (Some x) else argmin_num r (S i) best bv
              end
  end.
Definition np_argmin (l : list num) : result nat := match l with [] => Err ValueError | x :: r => Ok (argmin_num r 1 0 x) end.
(** gratings.py:273-330 [resolvingpower_from_photonlist_robust]; each of [runs] is a photon list with its column and zero position *)
Definition robust (stats : list num -> num * num) (lphotons : list (list aphot)) (zeropositions : list (option R)) (orders : list Z) : result (list (num * num * num)) :=
  if negb (Nat.eqb (length lphotons) (length zeropositions)) then Err ValueError
  else bind (sequence (map (fun pz => resolvingpower stats (fst pz) orders (snd pz)) (combine lphotons zeropositions))) (fun results =>
    sequence (map (fun k => let column := map (fun row => nth k row (None, None, None)) results in
                            bind (np_argmin (map (fun t => fst (fst t)) column)) (fun i => Ok (nth i column (None, None, None)))) (seq 0 (length orders)))).

(** ** Sub-apertures *)
(** [np.isclose(a, b, atol=t)] with the default rtol *)
Definition isclose_atol (a b t : R) : bool := Rleb (Rabs (a - b)) (t + / 100000 * Rabs b).
(** gratings.py:384-386 [identify_photon_in_subaperture] *)
Definition in_subaperture (angle max_ang ang_0 : R) : bool :=
  isclose_atol (Rmod angle twopi) ang_0 max_ang || isclose_atol (Rmod angle twopi) (twopi - ang_0) max_ang.

(** ** CaptureResAeff *)
Record captured := Cap { Aeff0 : R; Aeffgrat : R; Aeff : list R; Rgrat : num; Rper : list num }.
Definition res_filter (p : aphot) : bool := (match a_coord p with Some _ => true | None => false end && Rltb 0 (a_prob p))%bool.
Definition nums (l : list num) : result (list R) := sequence (map (fun x => match x with Some r => Ok r | None => Err ValueError end) l).
(** gratings.py:439-501 [CaptureResAeff.__call__]. [aeff_filter]: 444-460 (everything) or 515-531 of the subclass. nan areas (n = 0) are an error here. *)
Definition select {A} (mask : list Z) (f : Z -> bool) (l : list A) : list A := map snd (filter (fun p => f (fst p)) (combine mask l)).
Definition capture (stats : list num -> num * num) (aeff_filter : aphot -> bool) (A_geom : R) (orders : list Z) (zeropos : option R)
    (photons : list aphot) (n_photons : option nat) : result captured :=
  let n := match n_photons with Some n => n | None => length photons end in
  bind (nums (effectivearea (filter aeff_filter photons) orders n A_geom)) (fun aeff =>
  let res := match resolvingpower stats (filter res_filter photons) orders zeropos with
             | Ok l => map (fun t => fst (fst t)) l
             | Err _ => repeat None (length orders)
             end in
  let disp := fun z => negb (Z.eqb z 0) in
  let '(avg, aeffgrat) := average_R_Aeff (select orders disp res) (select orders disp aeff) in
  Ok (Cap (Rsum (select orders (fun z => Z.eqb z 0) aeff)) aeffgrat aeff avg res)).
Definition all_photons (p : aphot) : bool := true.
Definition on_ccd (p : aphot) : bool := (0 <=? a_ccd p)%Z.

(** ** Projection *)
(** coords.py:40-49 [ProjectOntoPlane.__call__]: coordinates of one photon position *)
Definition project (pos4d : m4) (pos : v4) : result (option (R * R)) :=
  bind (h2e [center pos4d]) (fun c => bind (h2e [pos]) (fun p =>
  match e_y pos4d, e_z pos4d with
  | Some ey, Some ez =>
      bind (h2e [ey]) (fun y => bind (h2e [ez]) (fun z =>
        let v := add3 (neg3 (hd zero3 c)) (hd zero3 p) in Ok (Some (dot3 v (hd zero3 y), dot3 v (hd zero3 z)))))
  | _, _ => Ok None
  end)).
(** The object: names of the output columns and position *)
Record projector := Proj { loc_coos_name : string * string; proj_pos4d : m4 }.
(** coords.py:52-89 [facet_table]: the table (projected position, angle, radius, id, position) and the plane after the call. The function sets an attribute of
    the plane it is given (by default one object for all calls). *)
Record facetrow := FR { f_x : R; f_y : R; f_ang : R; f_rad : R; f_id : Z; f_pos : v3 }.
Definition facet_table (elems : list (Z * m4)) (plane : projector) : result (list facetrow * projector) :=
  let plane' := Proj ("facet_projx", "facet_projy")%string (proj_pos4d plane) in
  bind (sequence (map (fun e =>
    bind (project (proj_pos4d plane') (center (snd e))) (fun xy => match xy with
    | None => Err ValueError
    | Some (x, y) => Ok (FR x y (atan2 y x) (sqrt (y * y + x * x)) (fst e) (xyz (center (snd e))))
    end)) elems)) (fun rows => Ok (rows, plane')).

(** ** Widths *)
(** analysis.py:27-38 [mean_width_2d] *)
Definition mean (l : list R) : R := Rsum l / INR (length l).
Definition mean_width_2d (l : list (R * R)) : num :=
  match l with
  | [] => None
  | _ => let mx := mean (map fst l) in let my := mean (map snd l) in
         Some (Rsum (map (fun p => sqrt ((fst p - mx) * (fst p - mx) + (snd p - my) * (snd p - my))) l) / INR (length l))
  end.

(** ** Spec *)
(** Spec: the angle is within [t] of [c], modulo full turns *)
Definition within (angle c t : R) : Prop := exists n, Rabs (angle + twopi * IZR n - c) <= t.
(** Spec: distance of [x] from every value is bounded *)
Definition between (lo hi : R) (l : list (R * R)) : Prop := Forall (fun p => lo <= fst p <= hi) l.
Definition weights_ok (l : list (R * R)) : Prop := Forall (fun p => 0 <= snd p) l /\ 0 < Rsum (map snd l).
(** Spec: strictly ascending first coordinates *)
Fixpoint ascP (l : list (R * R)) : Prop := match l with p :: (q :: _) as r => fst p < fst q /\ ascP r | _ => True end.
(** Spec: result for one order, and its resolving power *)
Definition dflt : num * num * num := (None, None, None).
Definition rp (t : num * num * num) : num := fst (fst t).
(** Spec: number of simulated photons *)
Definition counted (n_photons : option nat) (photons : list aphot) : nat := match n_photons with Some n => n | None => length photons end.
