(** State that is shared between objects: class level dictionaries and lists.
    Models /repo/marxs/base/base.py:249-286 (columns described by dictionaries),
    /repo/marxs/math/geometry.py:90-106, 284-292 and /repo/marxs/optics/grating.py:176-184, 201
    (the [_geometry] dictionaries), /repo/marxs/optics/base.py:250-256 (construction of FlatStack). *)
From Verif Require Export Photons_Model.

(** ** Output columns described by dictionaries *)

(** A dictionary [{'name': ..., 'value': ...}] in the class level list [output_columns]. It is an object that all
    instances of the class share. Simplification: other keys (dtype, unit) are ignored. *)
Record coldict := mkCD { cd_name : string; cd_value : option cell }.
Inductive colspec := SName (n : string) | SDict (addr : nat).

(** [astropy.table.Column(length=n, ...)] without data is filled with zeros *)
Definition zero : cell := CNum (Some 0%Q).

Definition set_nth {A} (i : nat) (x : A) (l : list A) : list A :=
  firstn i l ++ match skipn i l with [] => [] | _ :: r => x :: r end.

(** base.py:271-279, one entry of the loop. [objs] are the shared dictionary objects. A dictionary is never equal to a
    column name, so [n not in photons.colnames] is true for it; [n.pop('value', None)] changes the shared object;
    [photons.add_column] raises ValueError if the name exists. *)
Definition add_spec (sp : colspec) (st : list coldict * table) : (list coldict * table) * option err :=
  let (objs, t) := st in
  match sp with
  | SName n => if inb n (colnames t) then (st, None)
               else ((objs, mkT (nrows t) (cols t ++ [(n, repeat nan (nrows t))])), None)
  | SDict a =>
      match nth_error objs a with
      | None => (st, Some KeyError)
      | Some o =>
          let objs' := set_nth a (mkCD (cd_name o) None) objs in
          if inb (cd_name o) (colnames t) then ((objs', t), Some ValueError)
          else let v := match cd_value o with Some v => v | None => zero end in
               ((objs', mkT (nrows t) (cols t ++ [(cd_name o, repeat v (nrows t))])), None)
      end
  end.
Fixpoint add_specs (sps : list colspec) (st : list coldict * table) : (list coldict * table) * option err :=
  match sps with
  | [] => (st, None)
  | sp :: sps' => match add_spec sp st with (st', None) => add_specs sps' st' | r => r end
  end.
(** Processing several photon lists one after the other with elements of the same class: the shared objects after a
    history of calls (exceptions are caught by the caller). *)
Fixpoint objs_after (sps : list colspec) (objs : list coldict) (hist : list table) : list coldict :=
  match hist with
  | [] => objs
  | t :: h => objs_after sps (fst (fst (add_specs sps (objs, t)))) h
  end.

(** ** Parameters of geometries *)

(** [cls]: the dictionary [NoGeometry._geometry] of the class; [geos]: the instance dictionaries of all geometries
    created so far. Values are numbers. *)
Record gstate := mkG { cls : dict Q; geos : list (dict Q) }.
Inductive gop :=
| NewPlane                                (** FinitePlane, Cylinder, ...: geometry.py:102-106 *)
| NewHole (r : option Q) (ok : bool)      (** PlaneWithHole: geometry.py:290-292; [ok]: the position keywords are valid *)
| NewGrating (g : option nat) (angle : Q). (** FlatGrating with a new geometry or an existing one: grating.py:176-184 *)
Definition gstep (s : gstate) (o : gop) : gstate :=
  match o with
  | NewPlane => mkG (cls s) (geos s ++ [cls s])
  | NewHole r ok =>
      let c := dset "r_inner" (match r with Some x => x | None => 0%Q end) (cls s) in
      if ok then mkG c (geos s ++ [c]) else mkG c (geos s)
  | NewGrating None a => mkG (cls s) (geos s ++ [dset "groove_angle" a (cls s)])
  | NewGrating (Some g) a =>
      match nth_error (geos s) g with
      | Some d => mkG (cls s) (set_nth g (dset "groove_angle" a d) (geos s))
      | None => s
      end
  end.
Definition gruns (s : gstate) (l : list gop) : gstate := fold_left gstep l s.
(** [geometry[key]] for scalar parameters *)
Definition param (s : gstate) (g : nat) (k : string) : option Q :=
  match nth_error (geos s) g with Some d => dget k d | None => None end.
(** Spec: the operation is the construction of a grating on geometry [g] *)
Definition touches (g : nat) (o : gop) : bool :=
  match o with NewGrating (Some g') _ => Nat.eqb g' g | _ => false end.

(** ** Construction of stacks *)

(** optics/base.py:250-256: [for elem, k in zip(elements, keywords)]. Layers are pairs of class and keywords. *)
Definition flatstack_layers {A B} (elements : list A) (keywords : list B) : list (A * B) := combine elements keywords.
