(** Tolerancing runs: models /repo/marxs/design/tolerancing.py:26-41, 135-171, 223-450 and 453-549. *)
From Verif Require Export Container_Model Placement_Model.
Open Scope R_scope.

(** ** Changing attributes *)
Section Attributes.
Context {V : Type}.
(** tolerancing.py:135-171 [varyattribute] for one element, whose attributes are a dictionary. The attributes after the call, and the
    exception if there was one. *)
Fixpoint varyattribute1 (kwargs : dict V) (element : dict V) : dict V * option err :=
  match kwargs with
  | [] => (element, None)
  | (key, val) :: rest => if din key element then varyattribute1 rest (dset key val element) else (element, Some ValueError)
  end.
(** tolerancing.py:26-41 [oneormoreelements]: the same for each element of a list, in order *)
Fixpoint varyattribute (kwargs : dict V) (elements : list (dict V)) : list (dict V) * option err :=
  match elements with
  | [] => ([], None)
  | e :: rest =>
      match varyattribute1 kwargs e with
      | (e', Some x) => (e' :: rest, Some x)
      | (e', None) => let '(r, x) := varyattribute kwargs rest in (e' :: r, x)
      end
  end.
End Attributes.

(** ** Running a simulation for each set of parameters *)
Section Runs.
(** [Ph]: photon lists; [V]: values of parameters and results; [S]: everything else that can change (positions of the elements, random number
    generators, the source). *)
Context {Ph V S : Type}.
(** Photon lists are mutable objects, so they live in a memory and are passed by location. *)
Definition memory := list Ph.
Variable wigglefunc : S -> dict V -> S.
(** An instrument is called with a location, can change the list there and all others, and returns a location. *)
Variable instrum : S -> memory -> nat -> S * memory * nat.
Variable analyzefunc : Ph -> dict V.

(** tolerancing.py:273-282 [run_tolerances] *)
Fixpoint run_tolerances (s : S) (mem : memory) (photons_in : nat) (parameters : list (dict V)) : result (S * memory * list (dict V)) :=
  match parameters with
  | [] => Ok (s, mem, [])
  | pars :: rest =>
      let s1 := wigglefunc s pars in
      match nth_error mem photons_in with
      | None => Err NameError
      | Some p =>
          let '(s2, mem2, photons) := instrum s1 (mem ++ [p]) (length mem) in       (* photons_in.copy() *)
          match nth_error mem2 photons with
          | None => Err NameError
          | Some q =>
              bind (run_tolerances s2 mem2 photons_in rest) (fun '(s3, mem3, out) => Ok (s3, mem3, dupdate pars (analyzefunc q) :: out))
          end
      end
  end.

(** Spec: what an instrument does to the photons, and that it leaves all other photon lists alone *)
Definition acts_as (image : S -> Ph -> S * Ph) : Prop := forall s mem l p, nth_error mem l = Some p ->
  exists mem' l', instrum s mem l = (fst (image s p), mem', l') /\ nth_error mem' l' = Some (snd (image s p)) /\
    forall k, (k < length mem)%nat -> k <> l -> nth_error mem' k = nth_error mem k.
(** Spec: state of the elements before run [i], if every run starts from the photons [p] *)
Fixpoint state_before (image : S -> Ph -> S * Ph) (p : Ph) (s : S) (parameters : list (dict V)) (i : nat) : S :=
  match i, parameters with
  | Datatypes.S i', pars :: rest => state_before image p (fst (image (wigglefunc s pars) p)) rest i'
  | _, _ => s
  end.

(** tolerancing.py:356-375 [run_tolerances_for_energies]. [set_energy], [generate] and [before]: the source and the first part of the instrument
    (they return a new photon list); [wave]: the conversion to a wavelength; [strip]: [.value] of a Quantity. A Table is the list of its rows.
    A column that is set to one value can not be added to a table without columns (TypeError), and [vstack] needs at least one table. *)
Context {E : Type}.
Variable set_energy : S -> E -> S.
Variable before : S -> Ph -> S * Ph.
Variable source : S -> S * Ph.
Variable energy wave : E -> V.
Variable strip : V -> V.
Definition to_row (d : dict V) : dict V := map (fun kv => (fst kv, strip (snd kv))) d.
Definition add_energy (e : E) (d : dict V) : dict V := dset "wave" (wave e) (dset "energy" (energy e) d).
Fixpoint energies_loop (s : S) (mem : memory) (energies : list E) (parameters : list (dict V)) : result (S * memory * list (list (dict V))) :=
  match energies with
  | [] => Ok (s, mem, [])
  | e :: rest =>
      let '(s1, p1) := source (set_energy s e) in
      let '(s2, p2) := before s1 p1 in
      bind (run_tolerances s2 (mem ++ [p2]) (length mem) parameters) (fun '(s3, mem3, data) =>
        match data with
        | [] => Err TypeError
        | _ => bind (energies_loop s3 mem3 rest parameters) (fun '(s4, mem4, tabs) => Ok (s4, mem4, map (fun d => add_energy e (to_row d)) data :: tabs))
        end)
  end.
Definition run_tolerances_for_energies (s : S) (mem : memory) (energies : list E) (parameters : list (dict V)) (reset : option (dict V)) :
  result (S * memory * list (dict V)) :=
  bind (energies_loop s mem energies parameters) (fun '(s1, mem1, tabs) =>
    let s2 := match reset with Some r => wigglefunc s1 r | None => s1 end in
    match tabs with [] => Err ValueError | _ => Ok (s2, mem1, concat tabs) end).
End Runs.

(** tolerancing.py:437-450 [run_tolerances_for_energies2]: the elements before and after the split, and those given to the wiggle function.
    [subclass_ok] is used for the split but not for the elements. *)
Definition split_instrument (instrum : tree) (cls : string) (subclass_ok : bool) : result (list tree * list tree * list tree) :=
  match first_of_class_top_level instrum cls subclass_ok with
  | None => Err Exception
  | Some ind => Ok (firstn ind (kids instrum), skipn ind (kids instrum), elements_of_class instrum cls false false)
  end.

(** ** Lists of parameters *)
(** A numpy array as function of row and column. [a[start:stop, col] = vals], where [vals] has [stop - start] entries *)
Definition arr := nat -> nat -> R.
Definition zeros : arr := fun _ _ => 0.
Definition set_col (start col : nat) (vals : list R) (a : arr) : arr :=
  fun r c => if (Nat.leb start r && Nat.ltb r (start + length vals) && Nat.eqb c col)%bool then nth (r - start) vals 0 else a r c.
Definition rows (a : arr) (start n : nat) : list (list R) := map (fun r => map (a r) (seq 0 6)) (seq start n).
(** tolerancing.py:494-497: the loop over [i] *)
Definition fill (trans rot : list R) : arr :=
  let n_trans := length trans in
  let n_rot := length rot in
  let n := (3 * n_trans)%nat in
  fold_left (fun a i => set_col (n + i * n_rot) (i + 3) rot (set_col (i * n_trans) i trans a)) [0%nat; 1%nat; 2%nat] zeros.
(** tolerancing.py:499-501: half of the rows are the negative of the first half. *)
Definition mirrored (half : nat) (a : arr) : arr := fun r c => if Nat.ltb r half then a r c else - a (r - half)%nat c.
(** [np.unique(a, axis=0)]: lexicographically sorted rows without repetition *)
Fixpoint lex_lt (a b : list R) : bool :=
  match a, b with
  | [], _ :: _ => true
  | x :: a', y :: b' => if Rltb x y then true else if Rltb y x then false else lex_lt a' b'
  | _, [] => false
  end.
Fixpoint ins_row (x : list R) (l : list (list R)) : list (list R) :=
  match l with
  | [] => [x]
  | y :: l' => if lex_lt x y then x :: l else if lex_lt y x then y :: ins_row x l' else l
  end.
Definition unique (l : list (list R)) : list (list R) := fold_right ins_row [] l.
(** [dict(zip(names, row))]; the six names are different *)
Definition names6 : list string := ["dx"; "dy"; "dz"; "rx"; "ry"; "rz"].
Definition to_dict (row : list R) : dict R := combine names6 row.
(** tolerancing.py:494-515 [generate_6d_wigglelist], values in mm and rad *)
Definition wigglelist (trans rot : list R) : result (list (dict R) * list (dict R)) :=
  match trans, rot with
  | [], _ | _, [] => Err IndexError
  | _, _ =>
      let half := (3 * length trans + 3 * length rot)%nat in
      let a := mirrored half (fill trans rot) in
      Ok (map to_dict (unique (rows a 0 (2 * half))), map to_dict (unique (rows a 0 half)))
  end.

(** tolerancing.py:545-549 [select_1dof_changed]; the order of a python set does not matter here *)
Fixpoint others_zero (pars : list string) (row : dict R) : result bool :=
  match pars with
  | [] => Ok true
  | p :: rest => match dget p row with None => Err KeyError | Some v => bind (others_zero rest row) (fun b => Ok (Reqb v 0 && b)%bool) end
  end.
Definition select_1dof_changed (table : list (dict R)) (par : string) (parlist : list string) : result (list (dict R)) :=
  let others := filter (fun p => negb (String.eqb p par)) parlist in
  bind (collect (map (others_zero others) table)) (fun ind => Ok (map snd (filter fst (combine ind table)))).

(** Spec: a row with degree of freedom [k] at value [v] and all others at zero *)
Definition one_dof (k : nat) (v : R) : dict R := map (fun j => (nth j names6 "", if Nat.eqb j k then v else 0)) (seq 0 6).
(** Spec: the values asked for degree of freedom [k] *)
Definition values_of (trans rot : list R) (k : nat) : list R := if Nat.ltb k 3 then trans else rot.
(** Spec: strictly increasing *)
Fixpoint increasing (l : list (list R)) : Prop :=
  match l with
  | x :: (y :: _) as l' => lex_lt x y = true /\ increasing l'
  | _ => True
  end.
