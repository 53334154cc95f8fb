(** Tables of grating efficiencies: models /repo/marxs/missions/mitsnl/catgrating.py:44-144 on top of the tables in C112 and the draw in C32. Numbers are real numbers.
    scipy's RectBivariateSpline with k=1 (the default) is linear between the nodes in both directions; outside of the table it takes the value at the edge. The unit of the
    wavelength is not looked at; [deg]: factor from the unit of the angles to radian. *)
From Verif Require Export Sampling_Model Mission_Model Analysis_Model.
Open Scope R_scope.

Fixpoint ascb (l : list R) : bool := match l with x :: ((y :: _) as r) => (Rltb x y && ascb r)%bool | _ => true end.
Record efftab := Eff { f_wave : list R; f_theta : list R; f_orders : list Z; f_data : list (list (list R)) }.
(** catgrating.py:96-102 [__init__]: scipy needs values in order and two of them at least *)
Definition eff_init (deg : R) (wave theta : list R) (orders : list Z) (data : list (list R)) : result efftab :=
  bind (tablerows_to_2d wave theta data) (fun o =>
  let '(xs, ys, out) := o in
  let ys := map (fun t => t * deg) ys in
  match out with
  | [] => Ok (Eff xs ys orders out)
  | _ => if (ascb xs && ascb ys && Nat.leb 2 (length xs) && Nat.leb 2 (length ys))%bool then Ok (Eff xs ys orders out) else Err ValueError
  end).
(** [RectBivariateSpline(...).ev] *)
Definition bilinear (xs ys : list R) (z : list (list R)) (x y : R) : result R :=
  bind (sequence (map (fun row => interp (combine ys row) y) z)) (fun v => interp (combine xs v) x).
(** catgrating.py:104-135 [probabilities] for one photon; [hc]: wavelength times energy, in nm keV *)
Definition eff_probabilities (hc : R) (f : efftab) (e blaze : R) : result (list R) := sequence (map (fun z => bilinear (f_wave f) (f_theta f) z (hc / e) blaze) (f_data f)).
(** catgrating.py:137-144 [__call__] *)
Definition eff_call (hc : R) (f : efftab) (e blaze u : R) : result (Z * R) := bind (eff_probabilities hc f e blaze) (fun p => interp_call (f_orders f) p u).
(** catgrating.py:44-45 *)
Definition l1_orders : list Z := [-4; -3; -2; -1; 0; 1; 2; 3; 4]%Z.
Definition l1_p : list R := [0.006; 0.0135; 0.022; 0.028; 0.861; 0.028; 0.022; 0.0135; 0.006].

(** Spec: the value between two numbers that is next to [x] *)
Definition clamp (lo hi x : R) : R := Rmax lo (Rmin hi x).
(** Spec: the probabilities in row [r] of the table *)
Definition table_row (data : list (list R)) (r : nat) : list R := map (fun c => nth r c 0) data.
