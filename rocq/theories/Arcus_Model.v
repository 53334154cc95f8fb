(** Arcus, first part: error budget, tilted grating bars, camera layout and alignment.  Models
    /repo/marxs/missions/arcus/arcus.py:41-47, 142-176, 342-384, 425-455, 472-485, 521-547, /repo/marxs/missions/mitsnl/tolerances.py:56-97.
    Lengths in mm, angles in radian.  Random draws are arguments. *)
From Coq Require Import String.
From Verif Require Export Rowland_Model Sampling_Model.
From Coq Require Import List.
Export ListNotations.
Open Scope R_scope.

(** ** arcus.py:142-176 [reformat_randall_errorbudget] *)
(** One row of the budget.  [b_slot] is row[3]: [None] if the list has only three entries. *)
Record brow := Row { b_class : string; b_kind : string; b_raw : list R; b_slot : option (option (list R)) }.
Fixpoint mapi_from {A B} (k : nat) (f : nat -> A -> B) (l : list A) : list B :=
  match l with [] => [] | a :: l' => f k a :: mapi_from (S k) f l' end.
Definition deg2rad (x : R) : R := x * PI / 180.
(** arcus.py:142-176 for entry [i] *)
Definition budget_entry (i : nat) (v : R) : R := (if Nat.ltb i 3 then v / 1000 else deg2rad (v / 3600)) / 3.
(** arcus.py:166-176 for one row; [randn]: the numbers drawn if [globalfac] is None *)
Definition budget_tol (globalfac : option R) (randn : nat -> R) (row : brow) : list R :=
  let tol := mapi_from 0 budget_entry (b_raw row) in
  if String.eqb (b_kind row) "global" then
    match globalfac with
    | Some f => map (fun v => v * f) tol
    | None => mapi_from 0 (fun i v => v * randn i) tol
    end
  else tol.
(** The budget is changed in place: the rows after the call, and the exception *)
Fixpoint reformat_budget (globalfac : option R) (randn : nat -> nat -> R) (k : nat) (budget : list brow) : list brow * option err :=
  match budget with
  | [] => ([], None)
  | row :: rest =>
      match b_slot row with
      | None => (row :: rest, Some IndexError)
      | Some _ =>
          let row' := Row (b_class row) (b_kind row) (b_raw row) (Some (Some (budget_tol globalfac (randn k) row))) in
          let '(rest', e) := reformat_budget globalfac randn (S k) rest in (row' :: rest', e)
      end
  end.
(** arcus.py:521-541 [align_requirement_smith] *)
Definition align_requirement_smith : list brow :=
  [Row "SPOChannelMirror" "individual" [20; 100; 500; 300; 300; 10] (Some None);
   Row "CATfromMechanical" "global" [1000; 1000; 1000; 300; 300; 600] (Some None);
   Row "CATfromMechanical" "individual" [1000; 1000; 200; 300; 180; 300] (Some None);
   Row "CATWindow" "individual" [1000; 1000; 200; 300; 180; 300] (Some None);
   Row "DetCamera" "global" [5000; 2000; 1000; 180; 180; 180] (Some None)].

(** Spec: units *)
Definition micron : R := / 1000.
Definition arcsec : R := 2 * PI / (360 * 60 * 60).

(** ** mitsnl/tolerances.py:56-97 [wiggle_and_bar_tilt] for one container *)
Definition mulv3 (a b : v3) : v3 := V3 (x3 a * x3 b) (y3 a * y3 b) (z3 a * z3 b).
(** line 79: np.random.uniform(-max, max) for a number [u] in [0, 1) *)
Definition bar_tilt (max_bar_tilt u : R) : R := uniform (- max_bar_tilt) max_bar_tilt u.
(** lines 80-83 and uncertainties.py:36-39: translation and angles for one element; [draw]: from the standard normal distribution *)
Definition tilt_draw (dxyz rxyz : v3) (draw : v3 * v3) (tilt : R) : v3 * v3 :=
  (mulv3 dxyz (fst draw), add3 (neg3 (V3 0 tilt 0)) (mulv3 rxyz (snd draw))).
(** lines 94-97: the attribute blaze_center of the gratings; [None]: there is no such attribute *)
Fixpoint set_blaze_centers (grats : list (option R)) (tilts : list R) : list (option R) * option err :=
  match grats, tilts with
  | g :: grats', t :: tilts' =>
      match g with
      | None => (grats, Some ValueError)
      | Some _ => let '(r, e) := set_blaze_centers grats' tilts' in (Some t :: r, e)
      end
  | _, _ => (grats, None)
  end.
(** [grats]: the NonParallelCATGratings found after the elements were made again, at line 88 *)
Definition wiggle_and_bar_tilt (s : pstate) (dxyz rxyz : v3) (max_bar_tilt : R) (u : nat -> R) (draws : nat -> v3 * v3)
    (grats : list (option R)) : result (pstate * list (option R) * option err) :=
  let n := List.length (ps_elems s) in
  let tilts := map (fun i => bar_tilt max_bar_tilt (u i)) (seq 0 n) in
  bind (tol_apply s (Wiggle (fun i => tilt_draw dxyz rxyz (draws i) (nth i tilts 0)))) (fun s' =>
  if negb (Nat.eqb (List.length grats) n) then Ok (s', grats, Some SimulationSetupError)
  else let '(g, e) := set_blaze_centers grats tilts in Ok (s', g, e)).

(** ** arcus.py:342-384 [DetCamera] *)
Section Camera.
Variables d_ccd d_fsupport : R.
Variables offset0 offset1 : R.
(** lines 366-368 *)
Definition camera_gaps : list R := [0; d_ccd; d_fsupport; d_ccd; d_ccd; d_fsupport; d_ccd; d_ccd].
(** lines 363, 369: the strip for radius [r], half width [ccd] of a CCD and first angle [p0] *)
Definition phi_middle (d r : R) : R := asin (d / r) + PI.
Definition strip (r ccd p0 : R) : list R :=
  map (fun k => (p0 + ccd / r) + INR k * 2 * ccd / r + nth k (cumsum camera_gaps) 0 / r) (seq 0 8).
(** lines 370-374: sorted and in reverse order *)
Fixpoint ins_theta (x : R) (l : list R) : list R := match l with [] => [x] | y :: r => if Rleb x y then x :: l else y :: ins_theta x r end.
Definition camera_theta (d r ccd p0 : R) : list R :=
  let m := phi_middle d r in
  rev (fold_right ins_theta [] (map (fun t => m - t - offset0 / r) (strip r ccd p0) ++ map (fun t => m + offset1 / r + t) (strip r ccd p0))).
End Camera.
(** math/utils.py: xyz2zxy, by columns *)
Definition xyz2zxy : m4 := M4 (V4 0 0 1 0) (V4 1 0 0 0) (V4 0 1 0 0) (V4 0 0 0 1).
(** arcus.py:41-47: the torus of the detector in the coordinates of Arcus *)
Definition arcus_detector (g : double_rowland) : torus := Torus (tR (dr_detector g)) (tr (dr_detector g)) (mul4 xyz2zxy (tpos (dr_detector g))).
(** lines 361-384: the centers of all CCDs, with the numbers of the class; [n_CCDs] of the configuration is checked by an assert *)
Definition det_camera (g : double_rowland) (ccd p0 : R) (n_CCDs : nat) : result (list v4) :=
  let t := arcus_detector g in
  let pos := map (fun th => parametric t th 0) (camera_theta (215 / 100) 4 (-5) 5 (dr_d g) (tr t) ccd p0) in
  if Nat.eqb (List.length pos) n_CCDs then Ok pos else Err AssertionError.
(** Spec: place on the detector circle (in the plane y = 0) at the angle [a] from the lowest point towards positive x;
    [f / 2]: height of the center *)
Definition circle_place (r h a : R) : v3 := V3 (r * sin a) 0 (h - r * cos a).
(** Spec: the chips, from the middle out, in groups that are divided by the filter support *)
Fixpoint groups (support : R) (gaps : list R) (n : nat) : list nat :=
  match gaps with
  | [] => [n]
  | g :: gaps' => if Reqb g support then n :: groups support gaps' 1 else groups support gaps' (S n)
  end.

(** Spec: room between neighboring chips on the circle *)
Definition clearances (r ccd : R) (th : list R) : list R := map (fun ab => (fst ab - snd ab) * r - 2 * ccd) (combine th (tl th)).
(** Spec: distances (as a length on the circle, from the middle out) of the gap after chip [i] in the strip towards positive (negative) angle *)
Definition gap_plus (m r ccd : R) (th : list R) (i : nat) : R * R := ((nth (7 - i) th 0 - m) * r + ccd, (nth (6 - i) th 0 - m) * r - ccd).
Definition gap_minus (m r ccd : R) (th : list R) (i : nat) : R * R := ((m - nth (8 + i) th 0) * r + ccd, (m - nth (9 + i) th 0) * r - ccd).

(** arcus.py:425-451: position and scale of the circular detector in PerfectArcus.add_detectors. [r0]: radius in the default configuration
    of the module; [d]: of the configuration that is used *)
Definition circ_rot : m3 := axangle2mat_n (V3 0 1 0) PI.
Definition circ_detector (r0 d : R) : m4 :=
  compose (V3 0 0 (sqrt (r0 * r0 - d * d))) (mul3 (lin xyz2zxy) circ_rot) (V3 r0 r0 20).
(** Spec: a point in space is on the surface of the circular detector with position [m], at the angle phi *)
Definition on_circ (m : m4) (p : v3) (phi : R) : Prop := exists z, app4 m (V4 (cos phi) (sin phi) z 1) = hom p 1.

(** ** Alignment: arcus.py:472-485 for petals with windows with gratings *)
(** Misalignment of a petal (CATfromMechanical) and, for its windows (CATWindow), of each window as a whole and its gratings *)
Record petal := Petal { pe_unc : m4; pe_elems : list m4; pe_windows : list (m4 * list m4) }.
(** CATfromMechanical.generate_elements (ralfgrating.py:101-104) makes new windows, whose misalignments are the identity *)
Definition new_windows (w : list (m4 * list m4)) : list (m4 * list m4) := map (fun w => (id4, repeat id4 (List.length (snd w)))) w.
(** the last argument of the functions of tolerancing.py is a misalignment per element; [all k j]: for element [j] of the [k]th container *)
Definition petal_global (m : m4) (p : petal) : petal := Petal m (pe_elems p) (new_windows (pe_windows p)).
Definition petal_wiggle (draw : nat -> m4) (p : petal) : petal := Petal (pe_unc p) (map draw (seq 0 (List.length (pe_elems p)))) (new_windows (pe_windows p)).
Definition window_global (m : m4) (p : petal) : petal := Petal (pe_unc p) (pe_elems p) (map (fun w => (m, snd w)) (pe_windows p)).
Definition window_wiggle (draw : nat -> nat -> m4) (p : petal) : petal :=
  Petal (pe_unc p) (pe_elems p) (mapi_from 0 (fun k w => (fst w, map (draw k) (seq 0 (List.length (snd w))))) (pe_windows p)).
(** moveglobal and the sigmas of wiggle take the six numbers of the row *)
Definition vec6 (l : list R) : v3 * v3 := (V3 (nth 0 l 0) (nth 1 l 0) (nth 2 l 0), V3 (nth 3 l 0) (nth 4 l 0) (nth 5 l 0)).
Definition wiggle_of (tol : list R) (draw : v3 * v3) : m4 := move6 (mulv3 (fst (vec6 tol)) (fst draw)) (mulv3 (snd (vec6 tol)) (snd draw)).
(** One row. Rows for other classes do not concern the petals. [draws c k j]: the numbers drawn in the call number [c];
    [tilt c row]: the call of [wiggle_and_bar_tilt] (see C132). *)
Section Align.
Variable draws : nat -> nat -> nat -> v3 * v3.
Variable tilt : nat -> brow -> petal -> result petal.
Definition row_tol (row : brow) : result (list R) :=
  match b_slot row with
  | None => Err IndexError
  | Some None => Err TypeError
  | Some (Some tol) => if Nat.ltb 6 (List.length tol) then Err TypeError else Ok tol
  end.
Definition align_row (c : nat) (row : brow) (p : petal) : result petal :=
  if String.eqb (b_kind row) "global" then
    bind (row_tol row) (fun tol =>
      let '(t, a) := vec6 tol in
      Ok (if String.eqb (b_class row) "CATfromMechanical" then petal_global (move6 t a) p
          else if String.eqb (b_class row) "CATWindow" then window_global (move6 t a) p else p))
  else if String.eqb (b_kind row) "individual" then
    bind (row_tol row) (fun tol =>
      Ok (if String.eqb (b_class row) "CATfromMechanical" then petal_wiggle (fun j => wiggle_of tol (draws c O j)) p
          else if String.eqb (b_class row) "CATWindow" then window_wiggle (fun k j => wiggle_of tol (draws c k j)) p else p))
  else if String.eqb (b_kind row) "individual_with_tilt" then tilt c row p
  else Err NotImplementedError.
Fixpoint align (c : nat) (budget : list brow) (p : petal) : result petal :=
  match budget with
  | [] => Ok p
  | row :: rest => bind (align_row c row p) (align (S c) rest)
  end.
End Align.
(** Spec: [row], the one with number [c], is what the petal is misaligned by *)
Definition takes_effect (draws : nat -> nat -> nat -> v3 * v3) (c : nat) (row : brow) (tol : list R) (p : petal) : Prop :=
  (b_class row = "CATfromMechanical" -> b_kind row = "global" -> pe_unc p = move6 (fst (vec6 tol)) (snd (vec6 tol)))%string /\
  (b_class row = "CATfromMechanical" -> b_kind row = "individual" ->
     forall j m, nth_error (pe_elems p) j = Some m -> m = wiggle_of tol (draws c O j))%string /\
  (b_class row = "CATWindow" -> b_kind row = "global" ->
     forall k w, nth_error (pe_windows p) k = Some w -> fst w = move6 (fst (vec6 tol)) (snd (vec6 tol)))%string /\
  (b_class row = "CATWindow" -> b_kind row = "individual" ->
     forall k w j m, nth_error (pe_windows p) k = Some w -> nth_error (snd w) j = Some m -> m = wiggle_of tol (draws c k j))%string.
(** Spec: a later row replaces an earlier one *)
Definition replaces (later row : brow) : Prop :=
  (b_class later = b_class row /\ b_kind later = b_kind row) \/ (b_class later = "CATfromMechanical" /\ b_class row = "CATWindow")%string.
