(** The wrapper around the MARX C mirror: models /repo/marxs/optics/marx.py:185-202 (MarxMirror.__call__).
    The C code is an arbitrary list of output rows [cphoton]; directions and polarizations are abstract, with
    [parallel_transport] as an argument.
    - [join(..., keys='tag')] is the inner join of astropy: sorted by the key, all pairs with equal key.  The table made
      from the C structure has no column "probability" (marx.py:170-174), so the joined table takes that column from the photons
      handed in.
    - [np.argsort] is not stable in numpy; here it is.  The difference is only visible for repeated tags.
    - a polarization array of a length different from the table is refused by astropy (ValueError); before that numpy
      broadcasts arrays with one row. *)
From Verif Require Export Base.
Open Scope Q_scope.

Section Marx.
Context {D P : Type}.
Record photon := mkPh { tag : Z; prob : Q; dir : D; pol : P }.
Record cphoton := mkC { ctag : Z; cdir : D; unreflected : bool; vblocked : bool }.

(** [np.argsort] followed by indexing *)
Fixpoint ins {A} (key : A -> Z) (x : A) (l : list A) : list A :=
  match l with
  | [] => [x]
  | y :: l' => if Z.leb (key x) (key y) then x :: l else y :: ins key x l'
  end.
Definition sorted_by {A} (key : A -> Z) (l : list A) : list A := fold_right (ins key) [] l.
(** [astropy.table.join] on the key *)
Definition join (new : list cphoton) (inn : list photon) : list (cphoton * photon) :=
  flat_map (fun n => map (pair n) (filter (fun p => Z.eqb (tag p) (ctag n)) inn)) (sorted_by ctag new).
(** [np.searchsorted] (side left) *)
Fixpoint searchsorted (l : list Z) (t : Z) : nat :=
  match l with
  | [] => 0
  | x :: l' => if Z.ltb x t then S (searchsorted l' t) else 0%nat
  end.
(** marx.py:197-198: column probability of the joined row times probability of the photon found by its tag *)
Definition new_prob (insorted : list photon) (row : cphoton * photon) : result Q :=
  match nth_error insorted (searchsorted (map tag insorted) (ctag (fst row))) with
  | None => Err IndexError
  | Some p => Ok (if (unreflected (fst row) || vblocked (fst row))%bool then 0 else prob (snd row) * prob p)
  end.
Fixpoint collect {A} (l : list (result A)) : result (list A) :=
  match l with
  | [] => Ok []
  | r :: l' => bind r (fun a => bind (collect l') (fun l => Ok (a :: l)))
  end.
(** marx.py:199-202: all photons handed in, in the order of the tags, against the rows of the joined table *)
Definition new_pol (transport : D -> D -> P -> P) (insorted : list photon) (rows : list (cphoton * photon)) : result (list P) :=
  let f (p : photon) (r : cphoton * photon) := transport (dir p) (cdir (fst r)) (pol p) in
  if Nat.eqb (length insorted) (length rows) then Ok (map (fun pr => f (fst pr) (snd pr)) (combine insorted rows))
  else match insorted, rows with
       | [p], _ => Ok (map (f p) rows)
       | _, _ => Err ValueError
       end.
(** rows of the result: tag, probability, polarization *)
Definition marx_call (transport : D -> D -> P -> P) (new : list cphoton) (inn : list photon) : result (list (Z * Q * P)) :=
  let rows := join new inn in
  let insorted := sorted_by tag inn in
  bind (collect (map (new_prob insorted) rows)) (fun probs =>
  bind (new_pol transport insorted rows) (fun pols =>
  Ok (combine (combine (map (fun r => ctag (fst r)) rows) probs) pols))).

(** Spec: every row returned by the C code belongs to one photon that was handed in and no row comes twice *)
Definition c_contract (new : list cphoton) (inn : list photon) : Prop :=
  NoDup (map ctag new) /\ (forall c, In c new -> In (ctag c) (map tag inn)).
(** Spec: probability of a photon after a mirror with unit efficiency *)
Definition mirror_prob (c : cphoton) (p : photon) : Q := if (unreflected c || vblocked c)%bool then 0 else prob p.
End Marx.
Arguments photon D P : clear implicits.
Arguments cphoton D : clear implicits.
