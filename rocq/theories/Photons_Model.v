(** Photon tables and the processing of photons by optical elements.
    Models /repo/marxs/optics/base.py, /repo/marxs/base/base.py (add_output_cols), /repo/marxs/optics/baffles.py.

    General simplifications: numbers are rationals (no rounding), [nan] is [CNum None]; the dtype of a column is not
    modelled (a cell holds what was written to it); rows are identified by their index. *)
From Verif Require Export Base.

(** One entry of a photon table: a float (None = nan), an int or a vector (e.g. dir, pos, polarization). *)
Inductive cell :=
| CNum (x : option Q)
| CInt (z : Z)
| CVec (v : list (option Q)).
Definition nan : cell := CNum None.

(** An astropy Table: number of rows and named columns. *)
Record table := mkT { nrows : nat; cols : dict (list cell) }.
Definition colnames (t : table) : list string := dkeys (cols t).
Definition getcol (t : table) (c : string) : option (list cell) := dget c (cols t).
Definition setcol (t : table) (c : string) (l : list cell) : table := mkT (nrows t) (dset c l (cols t)).

(** All modelled methods mutate the table in place and may raise. The model returns the table as it is when the
    method ends *or raises*, together with the exception. *)
Definition M := table -> table * option err.
Definition ret : M := fun t => (t, None).
Definition raise (e : err) : M := fun t => (t, Some e).
Definition andthen (a b : M) : M :=
  fun t => match a t with (t', None) => b t' | r => r end.
Definition steps (l : list M) : M := fold_right andthen ret l.

(** What an element may return for a column: one number for all photons or an array. *)
Inductive value := Scalar (c : cell) | Array (l : list cell).

(** numpy broadcasting of a value to [n] selected rows; None = numpy raises ValueError. *)
Definition broadcast (n : nat) (v : value) : option (list cell) :=
  match v with
  | Scalar c => Some (repeat c n)
  | Array [c] => Some (repeat c n)
  | Array l => if Nat.eqb (length l) n then Some l else None
  end.

Definition count (m : list bool) : nat := length (filter (fun b => b) m).

(** [arr[mask] = vals] *)
Fixpoint mask_write (m : list bool) (l vals : list cell) : list cell :=
  match m, l with
  | true :: m', c :: l' =>
      match vals with v :: vs => v :: mask_write m' l' vs | [] => c :: l' end
  | false :: m', c :: l' => c :: mask_write m' l' vals
  | _, _ => l
  end.

(** [arr[mask]] *)
Fixpoint select {A} (m : list bool) (l : list A) : list A :=
  match m, l with
  | true :: m', c :: l' => c :: select m' l'
  | false :: m', _ :: l' => select m' l'
  | _, _ => []
  end.

Definition Qltb (a b : Q) : bool := match Qcompare a b with Lt => true | _ => false end.
(** [value < 0 or value > 1] with python semantics: every comparison with nan is False. *)
Definition num_bad (x : option Q) : bool :=
  match x with Some q => Qltb q 0 || Qltb 1 q | None => false end.
Definition cell_bad (c : cell) : bool :=
  match c with
  | CNum x => num_bad x
  | CInt z => (z <? 0)%Z || (1 <? z)%Z
  | CVec v => existsb num_bad v
  end.
Definition value_bad (v : value) : bool :=
  match v with Scalar c => cell_bad c | Array l => existsb cell_bad l end.

Definition nmul (a b : option Q) : option Q :=
  match a, b with Some x, Some y => Some (x * y)%Q | _, _ => None end.
(** product of two numbers; None = not two numbers (numpy raises) *)
Definition cmul (a b : cell) : option cell :=
  match a, b with
  | CNum x, CNum y => Some (CNum (nmul x y))
  | CNum x, CInt z => Some (CNum (nmul x (Some (inject_Z z))))
  | CInt z, CNum y => Some (CNum (nmul (Some (inject_Z z)) y))
  | CInt z, CInt y => Some (CInt (z * y)%Z)
  | _, _ => None
  end.
Fixpoint cmul_list (a b : list cell) : option (list cell) :=
  match a, b with
  | x :: a', y :: b' =>
      match cmul x y, cmul_list a' b' with Some z, Some zs => Some (z :: zs) | _, _ => None end
  | [], [] => Some []
  | _, _ => None
  end.

(** optics/base.py:12-51 [_assign_col_value(photons, col, index, value)], index a boolean array.
    [None] as column name is skipped. Simplification: only the mask form of [index] (an integer index is a mask
    with one True, see [single]). *)
Definition assign_col_value (col : option string) (m : list bool) (v : value) : M :=
  fun t =>
    match col with
    | None => (t, None)
    | Some c =>
        if String.eqb c "probability" then
          if value_bad v then (t, Some ValueError)
          else match getcol t c with
               | None => (t, Some KeyError)
               | Some old =>
                   match broadcast (count m) v with
                   | None => (t, Some ValueError)
                   | Some vs =>
                       match cmul_list (select m old) vs with
                       | None => (t, Some TypeError)
                       | Some new => (setcol t c (mask_write m old new), None)
                       end
                   end
               end
        else match getcol t c with
             | None => (t, Some KeyError)
             | Some old =>
                 match broadcast (count m) v with
                 | None => (t, Some ValueError)
                 | Some vs => (setcol t c (mask_write m old vs), None)
                 end
             end
    end.

(** base/base.py:271-279, for one name. Simplification: names are strings (the dictionary form is modelled in
    [Shared_Model]); they get a column filled with nan. *)
Definition add_col (n : option string) (default : cell) (t : table) : table :=
  match n with
  | None => t
  | Some c => if inb c (colnames t) then t
              else mkT (nrows t) (cols t ++ [(c, repeat default (nrows t))])
  end.

(** An optical element that uses the processing of the base class. *)
Inductive method :=
| Specific (f : table -> list bool -> result (list (option string * value)))
    (** [specific_process_photons(photons, intersect, interpos, intercoos)]; the method reads the table and returns
        new values *)
| PerPhoton (f : cell -> cell -> cell -> cell -> result (list cell)).
    (** [process_photon(dir, pos, energy, polarization)] *)

Record element := {
  meth : method;
  output_columns : list string;
  loc_coos_name : option (string * string);
  id_col : option string;
  id_num : Z }.

(** base/base.py:249-286 [add_output_cols] *)
Definition add_output_cols (e : element) (names : list (option string)) : M :=
  fun t =>
    let t1 := fold_left (fun acc n => add_col n nan acc) (map Some (output_columns e) ++ names) t in
    (add_col (id_col e) (CInt (-1)) t1, None).

(** [photons[c][mask] = vals] for vals of matching length *)
Definition write_col (c : string) (m : list bool) (vals : list cell) : M :=
  fun t => match getcol t c with
           | None => (t, Some KeyError)
           | Some old => (setcol t c (mask_write m old vals), None)
           end.

Definition single (n i : nat) : list bool := map (Nat.eqb i) (List.seq 0 n).

(** indices of True entries, [intersect.nonzero()[0]] *)
Fixpoint nonzero_from (k : nat) (m : list bool) : list nat :=
  match m with
  | [] => []
  | b :: m' => if b then k :: nonzero_from (S k) m' else nonzero_from (S k) m'
  end.
Definition nonzero (m : list bool) : list nat := nonzero_from 0 m.

(** [photons[col][i]] of the table copy [t0]; None = KeyError *)
Definition getcell (t : table) (c : string) (i : nat) : option cell :=
  match getcol t c with Some l => nth_error l i | None => None end.

(** optics/base.py:192-197: one photon of the loop over photons *)
Definition per_photon_step (e : element) (f : cell -> cell -> cell -> cell -> result (list cell))
    (t0 : table) (i : nat) : M :=
  match getcell t0 "dir" i, getcell t0 "pos" i, getcell t0 "energy" i, getcell t0 "polarization" i with
  | Some d, Some p, Some en, Some po =>
      match f d p en po with
      | Err er => raise er
      | Ok outs =>
          steps (map (fun cb => assign_col_value (Some (fst cb)) (single (nrows t0) i) (Scalar (snd cb)))
                    (combine (["dir"; "pos"; "energy"; "polarization"; "probability"] ++ output_columns e) outs))
      end
  | _, _, _, _ => raise KeyError
  end.

(** optics/base.py:178-199: first half of process_photons *)
Definition process_values (e : element) (m : list bool) : M :=
  fun t =>
    match meth e with
    | Specific f =>
        match f t m with
        | Err er => (t, Some er)
        | Ok outcols =>
            andthen (add_output_cols e (map fst outcols))
                (steps (map (fun cv => assign_col_value (fst cv) m (snd cv)) outcols)) t
        end
    | PerPhoton f => steps (map (per_photon_step e f t) (nonzero m)) t
    end.

(** optics/base.py:149-211 [OpticalElement.process_photons].
    [icoos] holds the two local coordinates per photon. The three arrays must have one entry per photon, numpy
    raises IndexError otherwise (modelled as a check up front). *)
Definition process_photons (e : element) (m : list bool) (ipos : list cell) (icoos : list (cell * cell)) : M :=
  fun t =>
    if negb (Nat.eqb (length m) (nrows t) && Nat.eqb (length ipos) (nrows t) && Nat.eqb (length icoos) (nrows t))
    then (t, Some IndexError)
    else if negb (existsb (fun b => b) m) then (t, None)
    else
      steps [process_values e m;
            match loc_coos_name e with
            | None => ret
            | Some (a, b) =>
                steps [add_output_cols e [Some a; Some b];
                      write_col a m (select m (map fst icoos));
                      write_col b m (select m (map snd icoos))]
            end;
            match id_col e with
            | None => ret
            | Some c => write_col c m (repeat (CInt (id_num e)) (count m))
            end;
            write_col "pos" m (select m ipos)] t.

(** Kinds of optical elements.
    - [Std]: base class processing;
    - [Stack]: optics/base.py:261-281 [FlatStack.process_photons], the element itself has
      [specific_process_photons] returning [{}] (lines 258-259), followed by all layers;
    - [Baffle]: optics/baffles.py:25-28. *)
Inductive opt :=
| Std (e : element)
| Stack (e : element) (layers : list opt)
| Baffle.

Definition stack_element (e : element) : element :=
  {| meth := Specific (fun _ _ => Ok []); output_columns := output_columns e;
     loc_coos_name := loc_coos_name e; id_col := id_col e; id_num := id_num e |}.

Fixpoint process (o : opt) (m : list bool) (ipos : list cell) (icoos : list (cell * cell)) : M :=
  match o with
  | Std e => process_photons e m ipos icoos
  | Stack e layers =>
      fun t => if negb (existsb (fun b => b) m) then (t, None)
               else andthen (process_photons (stack_element e) m ipos icoos)
                        (steps (map (fun l => process l m ipos icoos) layers)) t
  | Baffle =>
      fun t =>
        if negb (Nat.eqb (length m) (nrows t) && Nat.eqb (length ipos) (nrows t))
        then (t, Some IndexError)
        else steps [write_col "pos" m (select m ipos);
                   write_col "probability" (map negb m) (repeat (CNum (Some 0%Q)) (count (map negb m)))] t
  end.

(** An instrument: elements with their geometry (the [intersect] method, an arbitrary function of the table that may
    raise) and containers. simulator/simulator.py:42-49 without hooks (hooks: [Container_Model]).
    optics/base.py:144-147 [OpticalElement.__call__]. *)
Inductive instrument :=
| Elem (o : opt) (intersect : table -> result (list bool * list cell * list (cell * cell)))
| Container (l : list instrument).

Fixpoint run (i : instrument) : M :=
  match i with
  | Elem o g =>
      fun t => match g t with
               | Err e => (t, Some e)
               | Ok (m, ipos, icoos) => process o m ipos icoos t
               end
  | Container l => steps (map run l)
  end.

(** ** Specifications *)

(** A table is well formed if all columns have one entry per row and names are distinct. *)
Definition wf (t : table) : Prop :=
  NoDup (colnames t) /\ forall c l, getcol t c = Some l -> length l = nrows t.

(** Spec: [t'] differs from [t] only in rows marked in [m] and by columns added at the end; added columns hold a
    default ([nan], or [-1] for a column in [ids]) in all rows that are not marked. *)
Definition changes_only (m : list bool) (ids : list string) (t t' : table) : Prop :=
  nrows t' = nrows t /\
  (exists new, colnames t' = colnames t ++ new) /\
  (forall c i, In c (colnames t) -> nth_error m i <> Some true -> getcell t' c i = getcell t c i) /\
  (forall c i, In c (colnames t') -> ~ In c (colnames t) -> i < nrows t -> nth_error m i <> Some true ->
     getcell t' c i = Some nan \/ (In c ids /\ getcell t' c i = Some (CInt (-1)))).

(** Spec: probability of photon [i] *)
Definition probability (t : table) (i : nat) : option Q :=
  match getcell t "probability" i with Some (CNum (Some q)) => Some q | _ => None end.

(** Spec: every photon has a probability that is a number in [0,1] *)
Definition prob01 (t : table) : Prop :=
  forall i, i < nrows t -> exists q, probability t i = Some q /\ (0 <= q <= 1)%Q.

(** Spec for stacks: the transmission factor that an element returns for photon [i] of table [t] (1 if it does not
    return a probability; None if it raises or uses the per photon interface). *)
Fixpoint lookup_out (c : string) (outs : list (option string * value)) : option value :=
  match outs with
  | [] => None
  | (Some d, v) :: outs' => if String.eqb c d then Some v else lookup_out c outs'
  | (None, _) :: outs' => lookup_out c outs'
  end.
(** the entry of a returned value that belongs to photon [i]: values are in the order of the marked photons *)
Definition entry (v : value) (m : list bool) (i : nat) : option cell :=
  match v with
  | Scalar c => Some c
  | Array [c] => Some c
  | Array l => nth_error l (count (firstn i m))
  end.
Definition factor (o : opt) (t : table) (m : list bool) (i : nat) : option Q :=
  match o with
  | Std e =>
      match meth e with
      | Specific f =>
          match f t m with
          | Ok outs =>
              match lookup_out "probability" outs with
              | None => Some 1%Q
              | Some v =>
                  match entry v m i with
                  | Some (CNum x) => x
                  | Some (CInt z) => Some (inject_Z z)
                  | _ => None
                  end
              end
          | Err _ => None
          end
      | PerPhoton _ => None
      end
  | _ => None
  end.
(** the factors of a list of layers, each evaluated on the table it receives *)
Fixpoint factors (layers : list opt) (m : list bool) (ipos : list cell) (icoos : list (cell * cell)) (i : nat)
    (t : table) : list (option Q) :=
  match layers with
  | [] => []
  | o :: ls => factor o t m i :: factors ls m ipos icoos i (fst (process o m ipos icoos t))
  end.
(** the element does not use the name "probability" for its local coordinates or its id, and never returns a column
    name twice (it returns a python dictionary) *)
Definition prob_name_free (e : element) : Prop :=
  (forall a b, loc_coos_name e = Some (a, b) -> a <> "probability" /\ b <> "probability") /\
  id_col e <> Some "probability" /\
  (forall f t m outs, meth e = Specific f -> f t m = Ok outs -> NoDup (map fst outs)).

(** Spec: names used by elements *)
Definition opt_list {A} (o : option A) : list A := match o with Some x => [x] | None => [] end.

(** id columns used by an element and its layers *)
Fixpoint ids_of (o : opt) : list string :=
  match o with
  | Std e => opt_list (id_col e)
  | Stack e layers => opt_list (id_col e) ++ flat_map ids_of layers
  | Baffle => []
  end.
Fixpoint has_baffle (o : opt) : bool :=
  match o with
  | Std _ => false
  | Stack _ layers => existsb has_baffle layers
  | Baffle => true
  end.

Definition loc_list (e : element) : list string :=
  match loc_coos_name e with Some (a, b) => [a; b] | None => [] end.

(** a cell / value that holds numbers only (no nan, no vectors) *)
Definition num_cell (c : cell) : Prop :=
  match c with CNum (Some _) => True | CInt _ => True | _ => False end.
Definition num_value (v : value) : Prop :=
  match v with Scalar c => num_cell c | Array l => Forall num_cell l end.

(** The element does not use the probability column for something else and all factors it returns are numbers. *)
Definition elem_ok (e : element) : Prop :=
  id_col e <> Some "probability" /\
  (forall a b, loc_coos_name e = Some (a, b) -> a <> "probability" /\ b <> "probability") /\
  match meth e with
  | Specific f => forall t m outs v, f t m = Ok outs -> In (Some "probability", v) outs -> num_value v
  | PerPhoton f =>
      forall d p en po outs b, f d p en po = Ok outs ->
        In ("probability", b)
           (combine (["dir"; "pos"; "energy"; "polarization"; "probability"] ++ output_columns e) outs) ->
        num_cell b
  end.

Fixpoint opt_ok (o : opt) : Prop :=
  match o with
  | Std e => elem_ok e
  | Stack e layers =>
      id_col e <> Some "probability" /\
      (forall a b, loc_coos_name e = Some (a, b) -> a <> "probability" /\ b <> "probability") /\
      (fix all l := match l with [] => True | o :: l' => opt_ok o /\ all l' end) layers
  | Baffle => True
  end.

Fixpoint instr_ok (i : instrument) : Prop :=
  match i with
  | Elem o _ => opt_ok o
  | Container l => (fix all l := match l with [] => True | o :: l' => instr_ok o /\ all l' end) l
  end.

(** Spec: a number below 0 or above 1 (or a vector with such an entry) *)
Definition outside01 (c : cell) : Prop :=
  match c with
  | CNum (Some q) => (q < 0 \/ 1 < q)%Q
  | CNum None => False
  | CInt z => (z < 0 \/ 1 < z)%Z
  | CVec v => exists q, In (Some q) v /\ (q < 0 \/ 1 < q)%Q
  end.
