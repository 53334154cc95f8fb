(** Keywords, docstrings and plot properties: models /repo/marxs/missions/arcus/boom.py:37-59, /repo/marxs/optics/scatter.py:44-47 and 99-107, optics/filter.py:45-46 and 86-88,
    /repo/marxs/base/base.py:29-64 (DocMeta), /repo/marxs/visualization/utils.py:19-26 and visualization/mayavi.py:236-248. Attributes of objects are dictionaries; units are left out. *)
From Verif Require Export Base Viz_Model.
From Coq Require Import Reals.
Open Scope R_scope.
Open Scope string_scope.
Open Scope list_scope.

(** ** boom.py *)
(** attributes: those of the instance hide those of the class *)
Definition attribute {V} (cls own : dict V) (k : string) : option V := match dget k own with Some v => Some v | None => dget k cls end.
(** boom.py:52-56; [self.name] in the error message is looked up like any attribute *)
Fixpoint set_dims {V} (cls own dims : dict V) : result (dict V) :=
  match dims with
  | [] => Ok own
  | (k, v) :: r =>
      match attribute cls own k with
      | Some _ => set_dims cls (dset k v own) r
      | None => match attribute cls own "name" with Some _ => Err ValueError | None => Err AttributeError end
      end
  end.
(** boom.py:49-59; [kw]: the keywords that are dictionaries, [known]: the keywords of Parallel; other keywords are refused by MarxsElement (base.py:78-87) *)
Definition boom_init {V} (cls : dict V) (known : list string) (kw : dict (dict V)) : result (dict V) :=
  let dims := match dget "boom_dimensions" kw with Some d => d | None => [] end in
  bind (set_dims cls [] dims) (fun own =>
  if forallb (fun k => inb k known) (dkeys (ddel "boom_dimensions" kw)) then Ok own else Err ValueError).
(** boom.py:37-47: the numbers of ThreeSidedBoom *)
Definition three_sided : dict R :=
  [("l_longeron", 1080); ("l_batten", 1600); ("l_diag", sqrt (1080 * 1080 + 1600 * 1600)); ("d_longeron", 102 / 10); ("d_batten", 8); ("d_diag", 2);
   ("start_bay", 0); ("n_bays", 10); ("n_sides", 3)].

(** ** keywords of optical elements *)
(** scatter.py:99-107; [cls]: the attribute of the class. The result: attribute, warning, keywords that are left *)
Definition random_init {V} (cls : option V) (kw : dict V) : result (V * bool * dict V) :=
  match dget "scatter" kw with
  | Some v => Ok (v, match cls with Some _ => true | None => false end, ddel "scatter" kw)
  | None => match cls with Some v => Ok (v, false, kw) | None => Err ValueError end
  end.
(** scatter.py:44-47 *)
Definition radial_init {V} (zero : V) (kw : dict V) : result (V * V * dict V) :=
  match dget "inplanescatter" kw with
  | Some v => Ok (v, match dget "perpplanescatter" kw with Some w => w | None => zero end, ddel "perpplanescatter" (ddel "inplanescatter" kw))
  | None => Err KeyError
  end.
(** filter.py:45-46, 86-88 *)
Definition filter_init {V} (kw : dict V) : result (V * dict V) :=
  match dget "filterfunc" kw with Some v => Ok (v, ddel "filterfunc" kw) | None => Err KeyError end.

(** ** docstrings *)
(** an attribute of a class: its docstring and if this can be changed *)
Record attr := Attr { a_doc : option string; a_writable : bool }.
(** [getattr(b, k)]: first class in the method resolution order of [b] that defines [k]; classes are the dictionaries of their own attributes *)
Fixpoint lookup (k : string) (mro : list (dict attr)) : option attr :=
  match mro with [] => None | c :: r => match dget k c with Some a => Some a | None => lookup k r end end.
(** base.py:53-60; [mros]: the method resolution order of each class in the method resolution order of the new class, which starts with the class without own attributes (line 46) *)
Fixpoint find_doc (k : string) (mros : list (list (dict attr))) : option string :=
  match mros with
  | [] => None
  | m :: r => match lookup k m with Some a => match a_doc a with Some d => Some d | None => find_doc k r end | None => find_doc k r end
  end.
(** base.py:49-62: the dictionary of the new class *)
Definition inherit_docs (mros : list (list (dict attr))) (own : dict attr) : dict attr :=
  map (fun ka => (fst ka, match a_doc (snd ka) with
                          | Some _ => snd ka
                          | None => match find_doc (fst ka) mros with
                                    | Some d => if a_writable (snd ka) then Attr (Some d) (a_writable (snd ka)) else snd ka
                                    | None => snd ka
                                    end
                          end)) own.
(** base.py:40-64: a new class derived from classes with method resolution orders [mros] (in the order of its own) *)
Definition new_class (mros : list (list (dict attr))) (own : dict attr) : dict attr :=
  inherit_docs (([] :: concat (map (firstn 1) mros)) :: mros) own.

(** ** names and plot properties *)
(** utils.py:19-26; functions have no func_name in python 3 *)
Definition get_obj_name {V} (attrs : dict V) (str : V) : V :=
  match dget "name" attrs with Some v => v | None => match dget "func_name" attrs with Some v => v | None => str end end.
(** mayavi.py:241: [display or obj.display]; an empty dictionary counts as False *)
Definition used_display {V} (given : option (dict V)) (own : displaydict V) : displaydict V :=
  match given with Some (kv :: r) => DD (kv :: r) None | _ => own end.
(** mayavi.py:244-247: the properties of the plotted object that are set *)
Definition plot_props {V} (traits : list string) (given : option (dict V)) (own : displaydict V) : result (dict V) :=
  let d := used_display given own in
  fold_left (fun acc n => bind acc (fun l => if dd_in d n then bind (dd_getitem d n) (fun v => Ok (l ++ [(n, v)])) else Ok l)) traits (Ok []).

(** ** Spec *)
(** single inheritance: the method resolution orders of a chain of classes, nearest first *)
Fixpoint chain (l : list (dict attr)) : list (list (dict attr)) := match l with [] => [] | c :: r => (c :: r) :: chain r end.
(** the docstring of the nearest class that documents [k] *)
Fixpoint nearest (k : string) (l : list (dict attr)) : option string :=
  match l with
  | [] => None
  | c :: r => match dget k c with Some a => match a_doc a with Some d => Some d | None => nearest k r end | None => nearest k r end
  end.
(** each class finds its own attributes first, and only classes of the order *)
Definition orders (mros : list (list (dict attr))) : Prop := forall m, In m mros -> exists c r, m = c :: r /\ forall c', In c' r -> exists m' r', In m' mros /\ m' = c' :: r'.
