(** Definitions shared by all model files: python exceptions as values, and a few list functions that model
    numpy / python primitives.  Nothing here is specific to marxs. *)
From Coq Require Export String Bool Arith ZArith QArith Lia List.
Export ListNotations.
Open Scope string_scope.
Open Scope nat_scope.
Open Scope list_scope.

(** Python exception classes that the modelled code raises (explicitly or through numpy / the interpreter). *)
Inductive err :=
| ValueError | KeyError | TypeError | AssertionError | IndexError | AttributeError
| SimulationSetupError | UnboundLocalError | OGIPFormatError | NotImplementedError | NameError
| FileNotFoundError | GeometryError | Exception | AnalysisError
| NonTermination.     (** not a python exception: the fuel of a modelled loop ran out *)

Inductive result (A : Type) :=
| Ok (a : A)
| Err (e : err).
Arguments Ok {A} a.
Arguments Err {A} e.

Definition bind {A B} (r : result A) (f : A -> result B) : result B :=
  match r with Ok a => f a | Err e => Err e end.

(** [x in l] for python strings *)
Definition inb (x : string) (l : list string) : bool := existsb (String.eqb x) l.

(** Association list with python dict semantics: [dset] replaces the value of an existing key in place and
    appends a new key at the end; [dget] returns the value. *)
Section Dict.
Context {V : Type}.
Definition dict := list (string * V).
Fixpoint dget (k : string) (d : dict) : option V :=
  match d with
  | [] => None
  | (k', v) :: d' => if String.eqb k k' then Some v else dget k d'
  end.
Fixpoint dset (k : string) (v : V) (d : dict) : dict :=
  match d with
  | [] => [(k, v)]
  | (k', v') :: d' => if String.eqb k k' then (k', v) :: d' else (k', v') :: dset k v d'
  end.
Definition ddel (k : string) (d : dict) : dict := filter (fun kv => negb (String.eqb k (fst kv))) d.
Definition dkeys (d : dict) : list string := map fst d.
Definition din (k : string) (d : dict) : bool := inb k (dkeys d).
(** [d.update(d2)]: later entries win *)
Definition dupdate (d d2 : dict) : dict := fold_left (fun acc kv => dset (fst kv) (snd kv) acc) d2 d.
End Dict.
Arguments dict V : clear implicits.
