(** Photons in any instrument: models how the elements of /repo/marxs/optics (mirror.py, grating.py, scatter.py, filter.py, baffles.py, multiLayerMirror.py,
    detector.py) change a photon list through /repo/marxs/optics/base.py:144-211 and 12-51, with simulator/simulator.py:639-641 (Propagator) and simulator/simulator.py:42-49
    (Sequence).  The table has the columns dir, pos, polarization, energy, probability; other columns are left out here.  [None]: nan.  Random numbers and
    the values from order selectors are given for each photon that hits.  The geometry of an element with position is a FinitePlane, that of a circular detector a Cylinder. *)
From Verif Require Export Lens_Model Grating_Model Scatter_Model Brewster_Model Photons_Model Cylinder_Model.
Open Scope R_scope.

Record lphoton := LPhoton { l_dir : option v3; l_pos : option v3; l_pol : option v3; l_energy : R; l_prob : option R }.
(** what is drawn for one photon: order and its probability; two angles; a number for the azimuth; reflectivities *)
Record draw := Draw { dr_order : Z; dr_p : R; dr_a : R; dr_b : R; dr_u : R; dr_rs : R; dr_rp : R }.
Inductive part :=
| PLens (m : m4) (off f : R) (refl : R -> R -> R) (refl_nan : R -> option R)  (* mirror.py:53-82; reflectivity for energy and angle; for an angle that is nan *)
| PThin (m : m4) (f : R)                                                     (* mirror.py:130-147 *)
| PGrating (c : convention) (transmission : bool) (m : m4) (groove : R) (period : R * R -> R)  (* grating.py:233-277 *)
| PRadial (m : m4) (inplane perp : bool)                                     (* scatter.py:49-77; sigma different from 0 *)
| PRandom (m : m4) (on : bool)                                               (* scatter.py:109-145; sigma different from 0 *)
| PFilter (m : m4) (f : R -> R)                                              (* filter.py:90-94 *)
| PBrewster (m minv : m4)                                                    (* multiLayerMirror.py:44-91 *)
| PDetector (m : m4)                                                         (* detector.py:14-75; new columns only *)
| PBaffle (m : m4)                                                           (* baffles.py:25-28 *)
| PGlobal (f : R -> R)                                                       (* filter.py:48-53 *)
| PPropagate (d : R)                                                         (* simulator.py:639-641 *)
| PTube (m minv : m4) (lim0 lim1 : R).                                       (* detector.py:78-117, a circular detector; new columns only *)

(** marxs/__init__.py:12, in mm *)
Definition energy2wave : R := 12398419292004202 / 10000000000000000 * / 1000000.
(** geometry.intersect: comparisons with nan are False *)
Definition meets (m : m4) (ph : lphoton) : option (v3 * v3 * (R * R)) :=
  match l_dir ph, l_pos ph with
  | Some d, Some x => match plane_intersect m (hom d 0) (hom x 1) with (true, Some q, Some loc) => Some (d, xyz q, loc) | _ => None end
  | _, _ => None
  end.
(** the same for the Cylinder; the fourth component of directions is 0, so that geometry.py:494-495 does not complain *)
Definition meets_tube (m minv : m4) (lim0 lim1 : R) (ph : lphoton) : option (v3 * v3 * (R * R)) :=
  match l_dir ph, l_pos ph with
  | Some d, Some x => match cylinder_intersect m minv lim0 lim1 true (hom d 0) (hom x 1) with Ok (true, Some q, Some loc) => Some (d, xyz q, loc) | _ => None end
  | _, _ => None
  end.
Definition transported (d out : v3) (pol : option v3) : option v3 :=
  match pol with Some v => option_map xyz (parallel_transport (hom d 0) (hom out 0) (hom v 0) None None) | None => None end.
Definition bent (d : v3) (out : option v3) (pol : option v3) : option v3 * option v3 :=
  match out with Some o => (Some o, transported d o pol) | None => (None, None) end.
(** the values of specific_process_photons for one photon with direction [d] that hits at [q]: direction, polarization, factor for the probability *)
Definition effect (p : part) (dr : draw) (ph : lphoton) (d q : v3) (loc : R * R) : result (option v3 * option v3 * option R) :=
  match p with
  | PLens m off f refl refl_nan =>
      match perfect_lens m off f (refl (l_energy ph)) d q with
      | Some (out, pr) => Ok (bent d (Some out) (l_pol ph), Some pr)
      | None => Ok (bent d None (l_pol ph), refl_nan (l_energy ph))
      end
  | PThin m f =>
      match thin_lens (xyz (center m)) f d q (match l_pol ph with Some v => v | None => zero3 end) with
      | Some (out, pol) => Ok (Some out, match l_pol ph with Some _ => Some pol | None => None end, Some 1)
      | None => Ok (None, None, Some 1)
      end
  | PGrating c tr m groove period => Ok (bent d (option_map fst (grating c tr m groove d (dr_order dr) (energy2wave / l_energy ph) (period loc))) (l_pol ph), Some (dr_p dr))
  | PRadial m inplane perp =>
      match l_pos ph with
      | Some x => Ok (bent d (radial_scatter (xyz (center m)) x d (if inplane then Some (dr_a dr) else None) (if perp then Some (dr_b dr) else None)) (l_pol ph), Some 1)
      | None => Ok (None, None, Some 1)
      end
  | PRandom m on => if on then Ok (bent d (random_scatter d (Some (dr_a dr, dr_u dr))) (l_pol ph), Some 1) else Ok (Some d, l_pol ph, Some 1)
  | PFilter m f => if Rltb (f (l_energy ph)) 0 || Rltb 1 (f (l_energy ph)) then Err ValueError else Ok (Some d, l_pol ph, Some (f (l_energy ph)))
  | PBrewster m minv =>
      match l_pol ph with
      | Some v => bind (brewster m minv (dr_rs dr) (dr_rp dr) (hom d 0) (hom v 0)) (fun r => Ok (option_map xyz (fst (fst r)), snd r, snd (fst r)))
      | None => Ok (option_map xyz (Brewster_Model.reflect m minv (hom d 0)), None, None)
      end
  | _ => Ok (Some d, l_pol ph, Some 1)
  end.
(** base.py:43-47 [_assign_col_value] for the probability *)
Definition bad_factor (f : option R) : bool := match f with Some f => Rltb f 0 || Rltb 1 f | None => false end.
Definition times (a b : option R) : option R := match a, b with Some a, Some b => Some (a * b) | _, _ => None end.

(** ** The table, column by column *)
Record ctable := CTable { c_dir : list (option v3); c_pos : list (option v3); c_pol : list (option v3); c_energy : list R; c_prob : list (option R) }.
Fixpoint zip2 {A B C} (f : A -> B -> C) (l : list A) (l' : list B) : list C :=
  match l, l' with a :: l, b :: l' => f a b :: zip2 f l l' | _, _ => [] end.
Definition crows (t : ctable) : list lphoton :=
  zip2 (fun f pr => f pr) (zip2 (fun f e => f e) (zip2 (fun f pol => f pol) (zip2 LPhoton (c_dir t) (c_pos t)) (c_pol t)) (c_energy t)) (c_prob t).
(** [arr[mask] = values] *)
Fixpoint put {A} (mask : list bool) (l vals : list A) : list A :=
  match mask, l, vals with
  | true :: mask, _ :: l, v :: vals => v :: put mask l vals
  | false :: mask, c :: l, _ => c :: put mask l vals
  | _, _, _ => l
  end.
Fixpoint sequence {A} (l : list (result A)) : result (list A) :=
  match l with [] => Ok [] | r :: l => bind r (fun a => bind (sequence l) (fun rest => Ok (a :: rest))) end.
(** elements with a plane *)
Definition geometry (p : part) : option m4 :=
  match p with
  | PLens m _ _ _ _ | PThin m _ | PGrating _ _ m _ _ | PRadial m _ _ | PRandom m _ | PFilter m _ | PBrewster m _ | PDetector m | PBaffle m => Some m
  | PGlobal _ | PPropagate _ | PTube _ _ _ _ => None
  end.
(** the photons that hit, where, and the local coordinates *)
Definition surface (p : part) : option (lphoton -> option (v3 * v3 * (R * R))) :=
  match p with
  | PLens m _ _ _ _ | PThin m _ | PGrating _ _ m _ _ | PRadial m _ _ | PRandom m _ | PFilter m _ | PBrewster m _ | PDetector m | PBaffle m => Some (meets m)
  | PTube m minv lim0 lim1 => Some (meets_tube m minv lim0 lim1)
  | PGlobal _ | PPropagate _ => None
  end.
Definition is_some {A} (o : option A) : bool := match o with Some _ => true | None => false end.
Definition hit_data (o : option (v3 * v3 * (R * R))) : v3 * v3 * (R * R) := match o with Some h => h | None => (zero3, zero3, (0, 0)) end.
(** one element; [drs]: draws for the photons that hit *)
Definition process (p : part) (drs : list draw) (t : ctable) : result ctable :=
  match p with
  | PGlobal f =>
      let fs := map f (c_energy t) in
      if existsb (fun f => Rltb f 0) fs || existsb (fun f => Rltb 1 f) fs then Err ValueError
      else Ok (CTable (c_dir t) (c_pos t) (c_pol t) (c_energy t) (zip2 (fun pr f => times pr (Some f)) (c_prob t) fs))
  | PPropagate d =>
      Ok (CTable (c_dir t) (zip2 (fun x v => match x, v with Some x, Some v => Some (add3 x (scale3 d v)) | _, _ => None end) (c_pos t) (c_dir t)) (c_pol t) (c_energy t) (c_prob t))
  | _ =>
      match surface p with
      | None => Ok t
      | Some hit =>
          let inter := map hit (crows t) in
          let mask := map is_some inter in
          let pos := put mask (c_pos t) (map (fun h => Some (snd (fst (hit_data h)))) (select mask inter)) in
          match p with
          | PBaffle _ => Ok (CTable (c_dir t) pos (c_pol t) (c_energy t) (put (map negb mask) (c_prob t) (map (fun _ => Some 0) (filter negb mask))))
          | _ =>
              if negb (existsb (fun b => b) mask) then Ok t else
              if negb (Nat.eqb (length drs) (length (select mask inter))) then Err ValueError else
              bind (sequence (zip2 (fun dr hp => effect p dr (snd hp) (fst (fst (hit_data (fst hp)))) (snd (fst (hit_data (fst hp)))) (snd (hit_data (fst hp)))) drs (combine (select mask inter) (select mask (crows t))))) (fun outs =>
              if existsb bad_factor (map snd outs) then Err ValueError else
              Ok (CTable (put mask (c_dir t) (map (fun o => fst (fst o)) outs)) pos (put mask (c_pol t) (map (fun o => snd (fst o)) outs)) (c_energy t)
                         (put mask (c_prob t) (zip2 times (select mask (c_prob t)) (map snd outs)))))
          end
      end
  end.
(** simulator/simulator.py:42-49 [Sequence]: [drs] has a list of draws for each element *)
Fixpoint run (ps : list part) (drs : list (list draw)) (t : ctable) : result ctable :=
  match ps with
  | [] => Ok t
  | p :: ps => bind (process p (hd [] drs) t) (run ps (tl drs))
  end.

(** ** Spec *)
(** one photon and one element *)
Definition one (p : part) (dr : draw) (ph : lphoton) : result lphoton :=
  match p with
  | PGlobal f => if Rltb (f (l_energy ph)) 0 || Rltb 1 (f (l_energy ph)) then Err ValueError else Ok (LPhoton (l_dir ph) (l_pos ph) (l_pol ph) (l_energy ph) (times (l_prob ph) (Some (f (l_energy ph)))))
  | PPropagate d => Ok (LPhoton (l_dir ph) (match l_pos ph, l_dir ph with Some x, Some v => Some (add3 x (scale3 d v)) | _, _ => None end) (l_pol ph) (l_energy ph) (l_prob ph))
  | PBaffle m => Ok (match meets m ph with
                     | Some (d, q, _) => LPhoton (l_dir ph) (Some q) (l_pol ph) (l_energy ph) (l_prob ph)
                     | None => LPhoton (l_dir ph) (l_pos ph) (l_pol ph) (l_energy ph) (Some 0)
                     end)
  | _ => match surface p with
         | None => Ok ph
         | Some hit => match hit ph with
                     | None => Ok ph
                     | Some (d, q, loc) => bind (effect p dr ph d q loc) (fun o =>
                         if bad_factor (snd o) then Err ValueError else Ok (LPhoton (fst (fst o)) (Some q) (snd (fst o)) (l_energy ph) (times (l_prob ph) (snd o))))
                     end
         end
  end.
(** does the element draw for this photon *)
Definition draws_for (p : part) (ph : lphoton) : bool :=
  match p with PBaffle _ => false | _ => match surface p with Some hit => is_some (hit ph) | None => false end end.
(** a table with columns of one length *)
Definition rectangular (t : ctable) : Prop :=
  length (c_pos t) = length (c_dir t) /\ length (c_pol t) = length (c_dir t) /\ length (c_energy t) = length (c_dir t) /\ length (c_prob t) = length (c_dir t).
Definition stack (t t' : ctable) : ctable :=
  CTable (c_dir t ++ c_dir t') (c_pos t ++ c_pos t') (c_pol t ++ c_pol t') (c_energy t ++ c_energy t') (c_prob t ++ c_prob t').
(** a photon: unit direction, unit polarization that is perpendicular up to [eps]; a photon that is nan has no direction *)
Definition physical (eps : R) (ph : lphoton) : Prop :=
  (forall d, l_dir ph = Some d -> dot3 d d = 1) /\ (forall v, l_pol ph = Some v -> dot3 v v = 1) /\
  (forall d v, l_dir ph = Some d -> l_pol ph = Some v -> Rabs (dot3 v d) <= eps) /\ (forall f, l_prob ph = Some f -> 0 <= f <= 1).
Definition well_made (p : part) : Prop :=
  (forall m, geometry p = Some m -> perpendicular_axes m) /\ (forall m minv, p = PBrewster m minv -> mul4 minv m = id4) /\
  (forall m minv a b, p = PTube m minv a b -> mul4 minv m = id4 /\ mul4 m minv = id4 /\ affine minv /\ perpendicular_axes m).
(** number of draws for a list of photons *)
Definition hits_of (p : part) (rows : list lphoton) : nat := length (filter (draws_for p) rows).
(** the number of draws for a run *)
Fixpoint fits (ps : list part) (drs : list (list draw)) (t : ctable) : Prop :=
  match ps with
  | [] => True
  | p :: ps => length (hd [] drs) = hits_of p (crows t) /\ forall t', process p (hd [] drs) t = Ok t' -> fits ps (tl drs) t'
  end.
