(** Header (meta data) of photon lists: models /repo/marxs/base/base.py:93-191. *)
From Coq Require Qabs.
From Verif Require Export Base.

(** A header value: value and comment *)
Definition hval : Type := string * string.
Definition hval_eqb (a b : hval) : bool := String.eqb (fst a) (fst b) && String.eqb (snd a) (snd b).

(** base.py:93-97: the parsed version string *)
Record version := mkVer { ver_version : string; ver_git : option string; ver_dirty : option string }.

(** base.py:118-131 [TagVersion.__init__(ORIGIN, CREATOR, **kwargs)]. [origin] and [creator] are the values of the two
    named parameters; as in python, [kwargs] has all other keywords. Simplification: the check of the keyword [name] is
    the one of every element (C69). *)
Definition tag_init (v : version) (origin creator : option hval) (kwargs : dict hval) : dict hval :=
  let t := ddel "name" kwargs in
  let t := dset "MARXSVER" (ver_version v, "MARXS code version") t in
  let t := match ver_git v with Some g => dset "MARXSGIT" (g, "Git hash of MARXS code") t | None => t end in
  match ver_dirty v with Some d => dset "MARXSTIM" (d, "Date of dirty version ARCUS code") t | None => t end.

(** base.py:133-139 [TagVersion.__call__]; [date] is the clock *)
Definition tag_call (date : string) (tags : dict hval) (kwargs : dict hval) (meta : dict hval) : dict hval :=
  dupdate (dupdate (dset "DATE" (date, "Date/time of computation") meta) tags) kwargs.

(** base.py:142-182 [check_meta_consistent] *)
Fixpoint check_meta (m1 m2 : dict hval) (keywords : list string) (allow_missing : bool) : result unit :=
  match keywords with
  | [] => Ok tt
  | k :: ks =>
      match dget k m1, dget k m2 with
      | Some a, Some b => if hval_eqb a b then check_meta m1 m2 ks allow_missing else Err AssertionError
      | None, None => if allow_missing then check_meta m1 m2 ks allow_missing else Err KeyError
      | _, _ => Err KeyError
      end
  end.

(** base.py:185-191 [check_energy_consistent], with [np.allclose(a, b)]: |a - b| <= 1e-8 + 1e-5 |b|; [None] is a table
    without energy column; nan energies are [None] in the list. *)
Definition atol : Q := 1 # 100000000.
Definition rtol : Q := 1 # 100000.
Definition isclose (a b : option Q) : bool :=
  match a, b with
  | Some x, Some y => Qle_bool (Qabs.Qabs (x - y)) (atol + rtol * Qabs.Qabs y)
  | _, _ => false
  end.
Definition check_energy (energy : option (list (option Q))) : result unit :=
  match energy with
  | None => Ok tt
  | Some [] => Err IndexError
  | Some (e0 :: es) => if forallb (fun e => isclose e e0) (e0 :: es) then Ok tt else Err AssertionError
  end.
