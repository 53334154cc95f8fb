(** Stacks of elements in one place, scatter, and the start of a simulation: models /repo/marxs/optics/base.py:218-281 (FlatStack) for the elements of Instrument_Model,
    one photon at a time (C210 says why this is enough for the elements; the vectorized stack is in Photons_Model).  The layers are elements with the position of
    the stack, not baffles.  [entry]: source/pointing.py:147-160 followed by optics/aperture.py:68-78. *)
From Verif Require Export Instrument_Model Source_Model Aperture_Model.
Open Scope R_scope.

(** what a layer returns for a photon whose direction is nan already: every product with nan is nan, comparisons are False *)
Definition effect_nan (p : part) (dr : draw) (ph : lphoton) : result (option v3 * option v3 * option R) :=
  match p with
  | PLens _ _ _ _ refl_nan => Ok (None, None, refl_nan (l_energy ph))
  | PThin _ _ => Ok (None, None, Some 1)
  | PGrating _ _ _ _ _ => Ok (None, None, Some (dr_p dr))
  | PRadial _ _ _ => Ok (None, None, Some 1)
  | PRandom _ on => Ok (None, if on then None else l_pol ph, Some 1)
  | PFilter _ f => if Rltb (f (l_energy ph)) 0 || Rltb 1 (f (l_energy ph)) then Err ValueError else Ok (None, l_pol ph, Some (f (l_energy ph)))
  | PBrewster _ _ => Ok (None, None, None)
  | _ => Ok (None, l_pol ph, Some 1)
  end.
(** base.py:278-279: a layer gets the intersection that the stack has calculated; [q], [loc].  ThinLens looks for the intersection again (mirror.py:131) *)
Definition layer_values (p : part) (dr : draw) (q : v3) (loc : R * R) (ph : lphoton) : result (option v3 * option v3 * option R) :=
  match l_dir ph with
  | None => effect_nan p dr ph
  | Some d =>
      match p with
      | PThin m _ => match meets m ph with Some (_, q', _) => effect p dr ph d q' loc | None => Ok (None, None, Some 1) end
      | _ => effect p dr ph d q loc
      end
  end.
Definition layer (p : part) (dr : draw) (q : v3) (loc : R * R) (ph : lphoton) : result lphoton :=
  bind (layer_values p dr q loc ph) (fun o =>
  if bad_factor (snd o) then Err ValueError else Ok (LPhoton (fst (fst o)) (Some q) (snd (fst o)) (l_energy ph) (times (l_prob ph) (snd o)))).
Fixpoint layers (ps : list part) (drs : list draw) (q : v3) (loc : R * R) (ph : lphoton) : result lphoton :=
  match ps with
  | [] => Ok ph
  | p :: ps => bind (layer p (hd (Draw 0 0 0 0 0 0 0) drs) q loc ph) (layers ps (tl drs) q loc)
  end.
(** base.py:271-281 *)
Definition stack_photon (m : m4) (ps : list part) (drs : list draw) (ph : lphoton) : result lphoton :=
  match meets m ph with
  | None => Ok ph
  | Some (_, q, loc) => layers ps drs q loc (LPhoton (l_dir ph) (Some q) (l_pol ph) (l_energy ph) (l_prob ph))
  end.
(** pointing and aperture with the positions of aperture.py:92-95; probability 1 at the source *)
Definition entry (p : pointing) (aper : m4) (ra dec polangle energy u1 u2 : R) : option lphoton :=
  match fixed_pointing p ra dec polangle with
  | Some (d, v) => match projected aper d with Some f => Some (LPhoton (Some (xyz d)) (Some (xyz (place aper (rect_xy u1 u2)))) (Some (xyz v)) energy (Some (1 * f))) | None => None end
  | None => None
  end.

(** ** Spec *)
(** a sequence of elements, one photon *)
Fixpoint through (ps : list part) (drs : list draw) (ph : lphoton) : result lphoton :=
  match ps with
  | [] => Ok ph
  | p :: ps => bind (one p (hd (Draw 0 0 0 0 0 0 0) drs) ph) (through ps (tl drs))
  end.
(** the photon flies on, and not along the plane *)
Definition leaves (m : m4) (ph : lphoton) : Prop := exists d, l_dir ph = Some d /\ dot3 d (xyz (v_x m)) <> 0.
Definition layer_of (m : m4) (p : part) : Prop := geometry p = Some m /\ forall m', p <> PBaffle m'.
