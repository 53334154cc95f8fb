(** Response files: models /repo/marxs/reduction/ogip.py:46-80, 227-268, 318-466. *)
From Verif Require Export Base Vec_Model.
Open Scope R_scope.

(** ** numpy slices and index arrays *)
(** start or stop of a python slice of a sequence with [n] elements *)
Definition py_clip (n i : Z) : Z := if (i <? 0)%Z then Z.max 0 (i + n) else Z.min i n.
Definition slice_get {A} (l : list A) (a b : Z) : list A :=
  let n := Z.of_nat (length l) in
  let a' := py_clip n a in
  let b' := py_clip n b in
  firstn (Z.to_nat (b' - a')) (skipn (Z.to_nat a') l).
(** [l[a:b] = vals]: the number of elements has to be right; a single element is repeated *)
Definition slice_set {A} (l : list A) (a b : Z) (vals : list A) : result (list A) :=
  let n := Z.of_nat (length l) in
  let a' := Z.to_nat (py_clip n a) in
  let m := Z.to_nat (py_clip n b - py_clip n a) in
  if Nat.eqb (length vals) m then Ok (firstn a' l ++ vals ++ skipn (a' + m) l)
  else match vals with [v] => Ok (firstn a' l ++ repeat v m ++ skipn (a' + m) l) | _ => Err ValueError end.
(** [l[i]] with a python index *)
Definition py_nth {A} (l : list A) (i : Z) : result A :=
  let n := Z.of_nat (length l) in
  let i' := if (i <? 0)%Z then (i + n)%Z else i in
  if (i' <? 0)%Z then Err IndexError else match nth_error l (Z.to_nat i') with Some x => Ok x | None => Err IndexError end.
(** a list of python results, the first exception counts *)
Fixpoint sequence {A} (l : list (result A)) : result (list A) :=
  match l with
  | [] => Ok []
  | r :: rest => bind r (fun x => bind (sequence rest) (fun xs => Ok (x :: xs)))
  end.
Definition fancy {A} (l : list A) (ind : list Z) : result (list A) := sequence (map (py_nth l) ind).
(** [np.cumsum(np.concatenate(([0], l)))] *)
Fixpoint cumsum0 (acc : Z) (l : list Z) : list Z := acc :: match l with [] => [] | x :: r => cumsum0 (acc + x) r end.
(** [np.arange(a, b)] *)
Definition arangeZ (a b : Z) : list Z := map (fun i => (a + Z.of_nat i)%Z) (seq 0 (Z.to_nat (b - a))).

(** ** Groups of channels *)
(** ogip.py:421-431 [arr_to_rmf_matrix_row]. Positions at which a boolean list changes ([np.diff] of booleans is "not equal"). *)
Fixpoint diff_pos (prev : bool) (l : list bool) (i : nat) : list nat :=
  match l with
  | [] => []
  | b :: r => (if xorb prev b then [i] else []) ++ diff_pos b r (S i)
  end.
(** [reshape((-1, 2))] *)
Fixpoint pairs {A} (l : list A) : result (list (A * A)) :=
  match l with
  | [] => Ok []
  | [_] => Err ValueError
  | a :: b :: r => bind (pairs r) (fun p => Ok ((a, b) :: p))
  end.
Definition above (threshold x : R) : bool := Rltb threshold x.
Definition arr_to_rmf_matrix_row (arr : list R) (TLMIN : Z) (threshold : R) : result (nat * list Z * list Z * list R) :=
  let ind := map (above threshold) arr in
  bind (pairs (diff_pos false (ind ++ [false]) 0)) (fun start_end =>
    let nchan := map (fun p => (Z.of_nat (snd p) - Z.of_nat (fst p))%Z) start_end in
    let fchan := map (fun p => (Z.of_nat (fst p) + TLMIN)%Z) start_end in
    Ok (length fchan, fchan, nchan, filter (above threshold) arr)).

(** ** Reading a row *)
(** an entry of F_CHAN or N_CHAN: an array, or one number *)
Inductive cell := Arr (l : list Z) | Num (z : Z).
Record mrow := Mrow { r_lo : R; r_hi : R; r_ngrp : nat; r_fchan : cell; r_nchan : cell; r_matrix : list R }.
Definition cell_get (c : cell) (i : nat) : result Z :=
  match c with Arr l => match nth_error l i with Some z => Ok z | None => Err IndexError end | Num _ => Err IndexError end.
(** ogip.py:345-352: the loop of [full_rmf] *)
Definition full_step (r : mrow) (tlmin : Z) (rmf : list R) (i : nat) : result (list R) :=
  bind (cell_get (r_fchan r) i) (fun f =>
  bind (cell_get (r_nchan r) i) (fun n =>
  match r_nchan r with
  | Num _ => Err ValueError
  | Arr nchan =>
      let matindex := cumsum0 0 nchan in
      match nth_error matindex i, nth_error matindex (S i) with
      | Some a, Some b => slice_set rmf (f - tlmin) (f + n - tlmin) (slice_get (r_matrix r) a b)
      | _, _ => Err IndexError
      end
  end)).
Fixpoint loop_while {A} (step : A -> nat -> result A) (is : list nat) (x : A) : result A :=
  match is with [] => Ok x | i :: r => bind (step x i) (loop_while step r) end.
(** ogip.py:329-353 [full_rmf] for a given row; [nchannels] is the number of rows of EBOUNDS *)
Definition full_rmf (nchannels : nat) (tlmin : Z) (r : mrow) : result (list R) :=
  loop_while (full_step r tlmin) (seq 0 (r_ngrp r)) (repeat 0 nchannels).
(** ogip.py:355-374 [rmf] for a given row. [np.concatenate] of an empty list is a ValueError. *)
Definition rmf_channels (r : mrow) : result (list Z) :=
  bind (sequence (map (fun i => bind (cell_get (r_fchan r) i) (fun f => bind (cell_get (r_nchan r) i) (fun n => Ok (arangeZ (f - 1) (f + n - 1)))))
    (seq 0 (r_ngrp r)))) (fun parts => match parts with [] => Err ValueError | _ => Ok (concat parts) end).
Definition rmf (e_min e_max : list R) (r : mrow) : result (list R * list R * list R) :=
  bind (rmf_channels r) (fun ind => bind (fancy e_min ind) (fun lo => bind (fancy e_max ind) (fun hi => Ok (lo, hi, r_matrix r)))).
(** ogip.py:318-323 [row]. [conv]: conversion of the columns to the unit of [energy] (identity for an energy in keV, hc / E for a wavelength) *)
Fixpoint find_row (conv : R -> R) (energy : R) (m : list mrow) : result mrow :=
  match m with
  | [] => Err IndexError
  | r :: rest => if (Rleb (conv (r_lo r)) energy && Rltb energy (conv (r_hi r)))%bool then Ok r else find_row conv energy rest
  end.

(** ** Fixed length arrays *)
(** ogip.py:433-466 [variable_length_to_fixed_length], where all cells are arrays. [f32]: rounding to single precision. *)
Definition max_list (l : list Z) : Z := fold_right Z.max 0%Z l.
Definition pad {A} (d : A) (w : nat) (l : list A) : list A := l ++ repeat d (w - length l).
Definition as_list (c : cell) : list Z := match c with Arr l => l | Num z => [z] end.
(** A column of the table after an assignment of an array (ColOrKeyTable.__setitem__, see below): a keyword if all rows are equal *)
Inductive item (A : Type) := Keyword | Column (rows : list A).
Arguments Keyword {A}.
Arguments Column {A} rows.
Definition eqb_cells (a b : cell) : bool :=
  match a, b with
  | Num x, Num y => Z.eqb x y
  | Arr x, Arr y => if list_eq_dec Z.eq_dec x y then true else false
  | _, _ => false
  end.
Definition all_first {A} (eqb : A -> A -> bool) (l : list A) : bool := match l with [] => true | x :: r => forallb (fun y => eqb y x) (x :: r) end.
(** [fchan.squeeze()] and its assignment. With one row the squeezed array is that row, and its length is not that of the table. *)
Definition squeeze_assign (width : nat) (rows : list (list Z)) : result (item cell) :=
  match rows with
  | [row] =>
      if Nat.eqb width 1 then Ok Keyword
      else if all_first Z.eqb row then Ok Keyword else Err ValueError
  | _ =>
      let cells := if Nat.eqb width 1 then map (fun l => Num (nth 0 l 0%Z)) rows else map Arr rows in
      if all_first eqb_cells cells then Ok Keyword else Ok (Column cells)
  end.
Definition eqb_reals (a b : list R) : bool := forallb (fun p => Reqb (fst p) (snd p)) (combine a b).
Record fixed := Fixed { x_fchan : item cell; x_nchan : item cell; x_matrix : item (list R) }.
Definition sumZ (l : list Z) : Z := fold_right Z.add 0%Z l.
Definition to_fixed_length (f32 : R -> R) (m : list mrow) : result fixed :=
  match flat_map (fun r => as_list (r_fchan r)) m with
  | [] => Err ValueError
  | _ =>
      let g := fold_right Nat.max 0%nat (map r_ngrp m) in
      let w := Z.to_nat (max_list (map (fun r => sumZ (as_list (r_nchan r))) m)) in
      if (forallb (fun r => Nat.leb (length (as_list (r_fchan r))) g && Nat.leb (length (as_list (r_nchan r))) g && Nat.leb (length (r_matrix r)) w)%bool m) then
        bind (squeeze_assign g (map (fun r => pad 0%Z g (as_list (r_fchan r))) m)) (fun f =>
        bind (squeeze_assign g (map (fun r => pad 0%Z g (as_list (r_nchan r))) m)) (fun n =>
        let mat := map (fun r => pad 0 w (map f32 (r_matrix r))) m in
        Ok (Fixed f n (if all_first eqb_reals mat then Keyword else Column mat))))
      else Err ValueError
  end.
(** ogip.py:343-353 [full_rmf] for row [j] of the converted table: [colnames.index('F_CHAN')] needs the column; a row has no keywords *)
Definition full_rmf_fixed (nchannels : nat) (tlmin : Z) (m : list mrow) (x : fixed) (j : nat) : result (list R) :=
  match nth_error m j with
  | None => Err IndexError
  | Some r =>
      match x_fchan x with
      | Keyword => Err ValueError
      | Column fs =>
          match r_ngrp r, nth_error fs j, x_nchan x, x_matrix x with
          | O, _, _, _ => Ok (repeat 0 nchannels)
          | S _, Some (Num z), _, _ => Err IndexError
          | S _, Some f, Column ns, Column mat =>
              match nth_error ns j, nth_error mat j with
              | Some n, Some v => full_rmf nchannels tlmin (Mrow (r_lo r) (r_hi r) (r_ngrp r) f n v)
              | _, _ => Err IndexError
              end
          | _, _, _, _ => Err KeyError
          end
      end
  end.

(** ** Energy bounds *)
(** [np.argsort] followed by indexing: ascending order *)
Fixpoint insR (x : R) (l : list R) : list R := match l with [] => [x] | y :: r => if Rleb x y then x :: l else y :: insR x r end.
Definition sortR (l : list R) : list R := fold_right insR [] l.
(** ogip.py:252-268 [ebounds_from_edges]; [conv]: conversion to keV. CHANNEL, E_MIN and E_MAX *)
Definition ebounds_from_edges (conv : R -> R) (edges : list R) : list nat * list R * list R :=
  let s := sortR (map conv edges) in
  (seq 0 (length edges - 1), removelast s, tl s).

(** ogip.py:230-231 [RMF.__init__]: DETCHANS of the two tables *)
Definition detchans (n_matrix n_ebounds : nat) : nat * nat := (n_matrix, n_ebounds).

(** ** ColOrKeyTable *)
Section ColOrKey.
Context {V : Type}.
Variable eqb : V -> V -> bool.
(** A value that is assigned: a scalar, or an array (list of rows) *)
Inductive val := Scalar (v : V) | Array (l : list V).
(** the table: keywords (ogip.py: meta) and columns *)
Record cktable := CK { ck_meta : dict val; ck_cols : dict (list V) }.
(** ogip.py:62-68 [__getitem__] *)
Definition ck_get (t : cktable) (item : string) : result val :=
  match dget item (ck_meta t) with
  | Some v => Ok v
  | None => match dget item (ck_cols t) with Some l => Ok (Array l) | None => Err KeyError end
  end.
(** ogip.py:70-80 [__setitem__]; [value[0]] of an empty array is an IndexError *)
Definition ck_set (t : cktable) (item : string) (value : val) : result cktable :=
  match value with
  | Scalar v => Ok (CK (dset item value (ck_meta t)) (ddel item (ck_cols t)))
  | Array [] => Err IndexError
  | Array (x :: r) =>
      if all_first eqb (x :: r) then Ok (CK (dset item (Scalar x) (ck_meta t)) (ddel item (ck_cols t)))
      else Ok (CK (ck_meta t) (dset item (x :: r) (ck_cols t)))
  end.
Fixpoint ck_run (t : cktable) (ops : list (string * val)) : result cktable :=
  match ops with [] => Ok t | (k, v) :: r => bind (ck_set t k v) (fun t' => ck_run t' r) end.
(** Spec: constant values *)
Definition constant (v : val) : bool := match v with Scalar _ => true | Array l => all_first eqb l end.
(** Spec: the value last assigned to [k] *)
Fixpoint last_assigned (k : string) (ops : list (string * val)) (v0 : option val) : option val :=
  match ops with [] => v0 | (k', v) :: r => last_assigned k r (if String.eqb k k' then Some v else v0) end.
(** Spec: equal up to a constant array being represented by a scalar *)
Definition represents (v w : val) : Prop := v = w \/ exists x r, w = Array (x :: r) /\ all_first eqb (x :: r) = true /\ v = Scalar x.
End ColOrKey.

(** ** Spec *)
(** Spec: a row of the matrix with small entries removed *)
Definition cut (threshold : R) (arr : list R) : list R := map (fun x => if above threshold x then x else 0) arr.
(** Spec: entries of [l] at the positions above the threshold *)
Definition selected {A} (threshold : R) (arr : list R) (l : list A) : list A := map snd (filter (fun p => above threshold (fst p)) (combine arr l)).
Fixpoint ascending (l : list R) : Prop := match l with x :: (y :: _) as r => x <= y /\ ascending r | _ => True end.
(** Spec: a row with matching lengths *)
Definition well_formed (r : mrow) : Prop := exists f n, r_fchan r = Arr f /\ r_nchan r = Arr n /\ length f = r_ngrp r /\ length n = r_ngrp r /\
  Forall (fun z => (0 <= z)%Z) n /\ Z.of_nat (length (r_matrix r)) = sumZ n.
