(** Statements about whole instruments: all code is that of Instrument_Model (optics/mirror.py, grating.py, scatter.py, filter.py, baffles.py, detector.py, base.py) and
    Layers_Model; this file has the notions the statements need (rays, weights, rigid motions). *)
From Verif Require Export Layers_Model.
Open Scope R_scope.

(** ** Spec *)
(** elements that are not meant to change the direction; a transmission grating in order 0 *)
Definition straight (p : part) (dr : draw) : Prop :=
  match p with
  | PFilter _ _ | PDetector _ | PBaffle _ | PGlobal _ | PPropagate _ | PTube _ _ _ _ => True
  | PRandom _ on => on = false
  | PRadial _ a b => a = false /\ b = false
  | PGrating _ tr _ _ _ => tr = true /\ dr_order dr = 0%Z
  | _ => False
  end.
Fixpoint all_straight (ps : list part) (drs : list draw) : Prop :=
  match ps with [] => True | p :: ps => straight p (hd (Draw 0 0 0 0 0 0 0) drs) /\ all_straight ps (tl drs) end.
(** [q] is on the line of the photon *)
Definition on_ray (ph : lphoton) (q : v3) : Prop := exists d x k, l_dir ph = Some d /\ l_pos ph = Some x /\ q = add3 x (scale3 k d).
(** a photon that counts [c] times *)
Definition weigh (c : R) (ph : lphoton) : lphoton := LPhoton (l_dir ph) (l_pos ph) (l_pol ph) (l_energy ph) (times (Some c) (l_prob ph)).
Definition weigh_table (c : R) (t : ctable) : ctable := CTable (c_dir t) (c_pos t) (c_pol t) (c_energy t) (map (times (Some c)) (c_prob t)).
Definition result_map {A B} (f : A -> B) (r : result A) : result B := match r with Ok a => Ok (f a) | Err e => Err e end.
(** another coordinate system: [g] is a rotation followed by a translation *)
Definition rigid (g : m4) : Prop := affine g /\ rotation (lin g).
Definition turn (g : m4) (v : v3) : v3 := app3 (lin g) v.
Definition shift (g : m4) (x : v3) : v3 := add3 (turn g x) (xyz (center g)).
Definition displace (g : m4) (ph : lphoton) : lphoton := LPhoton (option_map (turn g) (l_dir ph)) (option_map (shift g) (l_pos ph)) (option_map (turn g) (l_pol ph)) (l_energy ph) (l_prob ph).
Definition displace_table (g : m4) (t : ctable) : ctable := CTable (map (option_map (turn g)) (c_dir t)) (map (option_map (shift g)) (c_pos t)) (map (option_map (turn g)) (c_pol t)) (c_energy t) (c_prob t).
Definition displace_part (g ginv : m4) (p : part) : part :=
  match p with
  | PLens m off f refl rn => PLens (mul4 g m) off f refl rn
  | PThin m f => PThin (mul4 g m) f
  | PGrating c tr m gr per => PGrating c tr (mul4 g m) gr per
  | PRadial m a b => PRadial (mul4 g m) a b
  | PRandom m on => PRandom (mul4 g m) on
  | PFilter m f => PFilter (mul4 g m) f
  | PBrewster m minv => PBrewster (mul4 g m) (mul4 minv ginv)
  | PDetector m => PDetector (mul4 g m)
  | PBaffle m => PBaffle (mul4 g m)
  | PGlobal f => PGlobal f
  | PPropagate d => PPropagate d
  | PTube m minv a b => PTube (mul4 g m) (mul4 minv ginv) a b
  end.
(** no random direction relative to the axes of the coordinate system *)
Definition no_random (p : part) : Prop := match p with PRandom _ on => on = false | _ => True end.
