(** Containers of simulation elements and monitors.
    Models /repo/marxs/simulator/simulator.py (BaseContainer, Sequence, KeepCol) and the keyword handling of
    /repo/marxs/base/base.py (MarxsElement.__init__, SimulationSequenceElement.__init__). *)
From Verif Require Export Base.

(** ** Trees of elements and searching by class *)

(** A simulation element. [mro] is the list of class names the object is an instance of, its own class first.
    [cont] tells if it has the method [elements_of_class] (subclasses of BaseContainer: Sequence, Parallel, FlatStack,
    MultiAperture). In marxs only containers have parts. *)
Inductive tree := Tree (ident : nat) (mro : list string) (cont : bool) (kids : list tree).
Definition ident (t : tree) := let 'Tree i _ _ _ := t in i.
Definition mro (t : tree) := let 'Tree _ m _ _ := t in m.
Definition cont (t : tree) := let 'Tree _ _ c _ := t in c.
Definition kids (t : tree) := let 'Tree _ _ _ k := t in k.

(** simulator.py:51-101: [isinstance(a, b)] or [type(a) == b] *)
Definition comp (subclass_ok : bool) (cls : string) (t : tree) : bool :=
  if subclass_ok then inb cls (mro t)
  else match mro t with c :: _ => String.eqb c cls | [] => false end.

(** simulator.py:51-101 [elements_of_class(cls, subclass_ok, stop_at_first)], with the comparison as argument. The
    recursive call in line 100 does not pass on [stop_at_first]. *)
Fixpoint elements_of (cmp : tree -> bool) (stop_at_first : bool) (t : tree) : list tree :=
  let a := if cmp t then [t] else [] in
  if cmp t && stop_at_first then a
  else a ++ flat_map (fun e => if cmp e then [e]
                               else if cont e then elements_of cmp false e else []) (kids t).
Definition elements_of_class (t : tree) (cls : string) (subclass_ok stop_at_first : bool) : list tree :=
  elements_of (comp subclass_ok cls) stop_at_first t.

(** simulator.py:104-142 [first_of_class_top_level] *)
Fixpoint first_from (cmp : tree -> bool) (i : nat) (l : list tree) : option nat :=
  match l with
  | [] => None
  | e :: l' =>
      if cmp e then Some i
      else if cont e && Nat.ltb 0 (length (elements_of cmp false e)) then Some i
      else first_from cmp (S i) l'
  end.
Definition first_of_class_top_level (t : tree) (cls : string) (subclass_ok : bool) : option nat :=
  first_from (comp subclass_ok cls) 0 (kids t).

(** Spec: the part of [t] at a path (list of positions), and all parts at any depth in depth first order. *)
Fixpoint sub (t : tree) (p : list nat) : option tree :=
  match p with
  | [] => Some t
  | i :: p' => match nth_error (kids t) i with Some k => sub k p' | None => None end
  end.
Fixpoint nodes (t : tree) : list tree := t :: flat_map nodes (kids t).
(** Spec: all parts of [t] below containers only: elements that are not containers have no parts *)
Definition only_containers_nest (t : tree) : Prop := forall n, In n (nodes t) -> cont n = false -> kids n = [].
(** Spec: no match inside another match (the root is exempt) *)
Definition matches_not_nested (cmp : tree -> bool) (t : tree) : Prop :=
  forall k n d, In k (kids t) -> In n (nodes k) -> cmp n = true -> In d (flat_map nodes (kids n)) -> cmp d = false.
(** Spec: [l] is a subsequence of [l'] *)
Inductive subseq {A} : list A -> list A -> Prop :=
| ss_nil : subseq [] []
| ss_keep x l l' : subseq l l' -> subseq (x :: l) (x :: l')
| ss_drop x l l' : subseq l l' -> subseq l (x :: l').

(** ** Calling a container *)

Section Calling.
  (** [P]: photon lists; [W]: everything else an observer can change (files, its own attributes); [R]: return values *)
  Context {P W R : Type}.
  Definition act := P * W -> (P * W) * option err.
  (** an element returns a photon list; an observer works in place and returns something *)
  Definition hook := P * W -> (P * W) * (R + err).
  Definition run_hook (h : hook) : act :=
    fun s => match h s with (s', inl _) => (s', None) | (s', inr e) => (s', Some e) end.
  Definition then_ (a b : act) : act := fun s => match a s with (s', None) => b s' | r => r end.
  Definition skip : act := fun s => (s, None).
  Definition all_ (l : list act) : act := fold_right then_ skip l.

  (** simulator.py:42-49 [BaseContainer.__call__] *)
  Fixpoint call (elements : list act) (pre post : list hook) : act :=
    match elements with
    | [] => skip
    | e :: rest =>
        then_ (all_ (map run_hook pre)) (then_ e (then_ (all_ (map run_hook post)) (call rest pre post)))
    end.

  (** Spec: an observer that looks at photons but does not change them, and does not raise *)
  Definition observer (h : hook) : Prop := forall p w, exists w' r, h (p, w) = ((p, w'), inl r).
  (** Spec: what an element does to photons does not depend on the outside *)
  Definition self_contained (e : act) : Prop :=
    forall p w w', fst (fst (e (p, w))) = fst (fst (e (p, w'))) /\ snd (e (p, w)) = snd (e (p, w')).
End Calling.

(** ** Construction *)

(** values of keyword arguments: lists of objects (name, callable or not) or something else *)
Inductive kwval := Objs (l : list (string * bool)) | Other (s : string).

(** base/base.py:78-87 [MarxsElement.__init__]: pops [name], refuses everything that is left.
    Simplification: attributes that are set are not recorded. *)
Definition marxs_init (kw : dict kwval) : result unit :=
  match ddel "name" kw with [] => Ok tt | _ => Err ValueError end.
(** base/base.py:242-247 [SimulationSequenceElement.__init__] *)
Definition sse_init (kw : dict kwval) : result unit := marxs_init (ddel "id_col" (ddel "id_num" kw)).
(** simulator.py:34-40 [BaseContainer.__init__]; [elements] is the attribute set before *)
Definition container_init (elements : kwval) (kw : dict kwval) : result unit :=
  let pre := match dget "preprocess_steps" kw with Some v => v | None => Objs [] end in
  let post := match dget "postprocess_steps" kw with Some v => v | None => Objs [] end in
  match elements, pre, post with
  | Objs a, Objs b, Objs c =>
      if forallb snd (a ++ b ++ c) then sse_init (ddel "postprocess_steps" (ddel "preprocess_steps" kw))
      else Err SimulationSetupError
  | _, _, _ => Err TypeError
  end.
(** simulator.py:201-203 [Sequence.__init__] *)
Definition sequence_init (kw : dict kwval) : result unit :=
  match dget "elements" kw with
  | None => Err KeyError
  | Some v => container_init v (ddel "elements" kw)
  end.
(** Spec: keywords a Sequence understands *)
Definition sequence_keywords : list string :=
  ["elements"; "preprocess_steps"; "postprocess_steps"; "id_num"; "id_col"; "name"].

(** ** KeepCol *)

Section Keep.
  (** Columns are arrays that live at an address and are changed in place. *)
  Context {C : Type}.
  Record kstate := mkK { heap : list C; tab : dict nat; kept : list nat }.
  (** what can happen to a photon list between two calls of the monitor: an in-place change of (part of) a column, or
      a column that is added or replaced by a new array *)
  Inductive kop := KCall | KWrite (c : string) (f : C -> C) | KReplace (c : string) (v : C).
  Fixpoint upd (i : nat) (f : C -> C) (h : list C) : list C :=
    match h, i with
    | x :: h', 0 => f x :: h'
    | x :: h', S i' => x :: upd i' f h'
    | [], _ => []
    end.
  (** simulator.py:566-570 [KeepCol.__call__] (copies the column); other operations see [kop] *)
  Definition kstep (col : string) (s : kstate) (o : kop) : kstate * option err :=
    match o with
    | KCall =>
        match dget col (tab s) with
        | None => (s, Some KeyError)
        | Some a =>
            match nth_error (heap s) a with
            | Some v => (mkK (heap s ++ [v]) (tab s) (kept s ++ [length (heap s)]), None)
            | None => (s, Some KeyError)
            end
        end
    | KWrite c f =>
        match dget c (tab s) with
        | None => (s, Some KeyError)
        | Some a => (mkK (upd a f (heap s)) (tab s) (kept s), None)
        end
    | KReplace c v => (mkK (heap s ++ [v]) (dset c (length (heap s)) (tab s)) (kept s), None)
    end.
  Fixpoint kruns (col : string) (s : kstate) (l : list kop) : kstate :=
    match l with [] => s | o :: l' => kruns col (fst (kstep col s o)) l' end.
  Definition kdata (s : kstate) : list (option C) := map (nth_error (heap s)) (kept s).

  (** Spec: the same history on plain values, without addresses *)
  Record vstate := mkV { vtab : dict C; vkept : list C }.
  Definition vstep (col : string) (s : vstate) (o : kop) : vstate :=
    match o with
    | KCall => match dget col (vtab s) with None => s | Some v => mkV (vtab s) (vkept s ++ [v]) end
    | KWrite c f => match dget c (vtab s) with None => s | Some v => mkV (dset c (f v) (vtab s)) (vkept s) end
    | KReplace c v => mkV (dset c v (vtab s)) (vkept s)
    end.
  Fixpoint vruns (col : string) (s : vstate) (l : list kop) : vstate :=
    match l with [] => s | o :: l' => vruns col (vstep col s o) l' end.
End Keep.

(** simulator.py:606-616: the loop that drops repeated steps, on any type of step with a comparison *)
Section Dedup.
  Context {A : Type} (close : A -> A -> bool).
  Fixpoint dedup_from (last : A) (i : nat) (l : list A) : list nat :=
    match l with
    | [] => []
    | x :: l' => if close last x then dedup_from last (S i) l' else i :: dedup_from x (S i) l'
    end.
  Definition dedup (l : list A) : list nat :=
    match l with [] => [0] | x :: l' => 0 :: dedup_from x 1 l' end.
End Dedup.

(** homogeneous positions of one step, one per photon; None = nan *)
Definition coord := option Q.
Definition pos4 := list coord.
Definition step := list pos4.

(** [np.isclose(a, b, atol, equal_nan=True)] with the default rtol = 1e-5 *)
Definition Qabs' (q : Q) : Q := if Qle_bool 0 q then q else (- q)%Q.
Definition isclose (atol : Q) (a b : coord) : bool :=
  match a, b with
  | Some x, Some y => Qle_bool (Qabs' (x - y)) (atol + (1 # 100000) * Qabs' y)
  | None, None => true
  | _, _ => false
  end.
Fixpoint forall2b {A B} (f : A -> B -> bool) (l : list A) (l' : list B) : bool :=
  match l, l' with
  | [], [] => true
  | a :: l, b :: l' => f a b && forall2b f l l'
  | _, _ => false
  end.
Definition close_steps (atol : Q) (a b : step) : bool := forall2b (forall2b (isclose atol)) a b.

(** math/utils.py:38-62 [h2e] on a whole array: drop the last coordinate if all are 0 or all are close to 1, divide if
    none is 0, ValueError otherwise. nan: [nan == 0] is False and [nan != 0] is True. *)
Definition wof (p : pos4) : coord := match nth_error p 3 with Some w => w | None => None end.
Definition is0 (x : coord) : bool := match x with Some q => Qeq_bool q 0 | None => false end.
Definition close1 (x : coord) : bool :=
  match x with Some q => Qle_bool (Qabs' (q - 1)) ((1 # 100000000) + (1 # 100000)) | None => false end.
Definition divc (x w : coord) : coord := match x, w with Some a, Some b => Some (a / b)%Q | _, _ => None end.
Definition h2e_all (d : list step) : result (list step) :=
  let ws := map wof (concat d) in
  if forallb is0 ws || forallb close1 ws then Ok (map (map (firstn 3)) d)
  else if forallb (fun w => negb (is0 w)) ws then Ok (map (map (fun p => map (fun x => divc x (wof p)) (firstn 3 p))) d)
  else Err ValueError.

(** simulator.py:575-617 [format_positions(atol)]. [data] holds one step per call. The result is indexed by step here
    (the code swaps the axes to photon, step, coordinate; [by_photon] does the same). [np.dstack] refuses steps with
    different numbers of photons. *)
Definition format_positions (data : list step) (atol : option Q) : result (list step) :=
  match data with
  | [] => Err ValueError
  | d0 :: _ =>
      if negb (forallb (fun p => Nat.eqb (length p) 4) d0) then Err ValueError
      else if negb (forallb (fun d => Nat.eqb (length d) (length d0) && forallb (fun p => Nat.eqb (length p) 4) d) data)
      then Err ValueError
      else bind (h2e_all data) (fun d =>
             match atol with
             | None => Ok d
             | Some tol => Ok (map (fun i => nth i d []) (dedup (close_steps tol) d))
             end)
  end.
Definition by_photon (n : nat) (d : list step) : list (list pos4) := map (fun i => map (fun s => nth i s []) d) (seq 0 n).

(** Spec: the fourth coordinates are all 0, all 1 (with the tolerance of [np.allclose]), all different from 0 *)
Definition all_zero (d : list step) : Prop := forall s p, In s d -> In p s -> exists w, wof p = Some w /\ (w == 0)%Q.
Definition all_one (d : list step) : Prop :=
  forall s p, In s d -> In p s -> exists w, wof p = Some w /\ (-((1 # 100000000) + (1 # 100000)) <= w - 1 <= (1 # 100000000) + (1 # 100000))%Q.
Definition none_zero (d : list step) : Prop := forall s p w, In s d -> In p s -> wof p = Some w -> ~ (w == 0)%Q.
Definition cartesian (p : pos4) : pos4 := map (fun x => match x, wof p with Some a, Some w => Some (a / w)%Q | _, _ => None end) (firstn 3 p).
