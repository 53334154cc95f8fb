(** Draws from discrete distributions: models /repo/marxs/math/random.py:56-95, /repo/marxs/optics/grating.py:37-57, 78-96 and
    /repo/marxs/missions/mitsnl/catgrating.py:137-144. All random numbers are arguments. *)
From Verif Require Export Vec_Model.
Open Scope R_scope.

Definition Rsum (l : list R) : R := fold_right Rplus 0 l.
(** [np.cumsum] *)
Fixpoint cumsum_from (acc : R) (l : list R) : list R :=
  match l with [] => [] | x :: l' => (acc + x) :: cumsum_from (acc + x) l' end.
Definition cumsum (l : list R) : list R := cumsum_from 0 l.
(** [np.diff] *)
Fixpoint diff (l : list R) : list R :=
  match l with x :: ((y :: _) as l') => (y - x) :: diff l' | _ => [] end.
(** [np.searchsorted(l, c)] (side left: first index with c <= l[i]) and side right (first index with c < l[i], also np.digitize);
    the length of the list if there is none *)
Fixpoint ss_left (l : list R) (c : R) : nat :=
  match l with [] => 0%nat | x :: l' => if Rleb c x then 0%nat else S (ss_left l' c) end.
Fixpoint ss_right (l : list R) (c : R) : nat :=
  match l with [] => 0%nat | x :: l' => if Rltb c x then 0%nat else S (ss_right l' c) end.

(** ** RandomArbitraryPdf *)
Record histogram := Hist { h_x : list R; h_width : list R; h_mass : list R }.
(** random.py:56-68: [self.x], [self.bin_width] and [pdf * bin_width]; empty input (not caught by the code) is excluded *)
Definition hist_init (x pdf : list R) : result histogram :=
  if negb (Nat.eqb (length x) (length pdf)) then Err ValueError else
  if negb (forallb (fun v => Rleb 0 v) pdf) then Err ValueError else
  let width := match x with [] => [0] | _ => 0 :: diff x end in
  if negb (forallb (fun v => Rleb 0 v) width) then Err ValueError else
  Ok (Hist x width (map (fun pw => fst pw * snd pw) (combine pdf width))).
(** random.py:72-78: [order] is the result of [np.argsort(pdf)] for sort=True (any order for equal entries) or 0, 1, 2, ... *)
Definition hist_cdf (h : histogram) (order : list nat) : list R := cumsum (map (fun i => nth i (h_mass h) 0) order).
(** [x[i - 1]] with the meaning that index -1 has in python *)
Definition nth_before (x : list R) (i : nat) : R := match i with O => last x 0 | S j => nth j x 0 end.
(** random.py:80-95 for one draw: [c] is the uniform draw between 0 and the total, [v] the one inside of the bin *)
Definition hist_index (h : histogram) (order : list nat) (c : R) : result nat :=
  match nth_error order (ss_left (hist_cdf h order) c) with Some i => Ok i | None => Err IndexError end.
Definition hist_value (h : histogram) (randomize : bool) (i : nat) (v : R) : R :=
  if randomize then nth_before (h_x h) i + nth i (h_width h) 0 * v else nth i (h_x h) 0.
Definition hist_draw (h : histogram) (order : list nat) (randomize : bool) (c v : R) : result R :=
  bind (hist_index h order c) (fun i => Ok (hist_value h randomize i v)).

(** ** Grating orders *)
Definition uniform_p (n : nat) : list R := repeat (/ INR n) n.
(** grating.py:37-48 *)
Definition orders_init {A} (orderlist : list A) (p : option (list R)) : result (list R) :=
  match p with
  | None => Ok (uniform_p (length orderlist))
  | Some p =>
      if negb (Nat.eqb (length p) (length orderlist)) then Err ValueError else
      if Rltb 1 (Rsum p) then Err ValueError else
      if existsb (fun v => Rltb v 0) p then Err ValueError else Ok p
  end.
(** [np.random.choice(a, p=p)] with the uniform draw [u]: numpy searches [u] in the normalized cumulative sum, side right. It raises
    ValueError for nan. *)
Definition np_choice {A} (a : list A) (p : list R) (u : R) : result A :=
  if Reqb (Rsum p) 0 then Err ValueError else
  match nth_error a (ss_right (map (fun x => x / Rsum p) (cumsum p)) u) with Some o => Ok o | None => Err IndexError end.
(** grating.py:51-57 for one photon: order and transmission probability *)
Definition orders_call {A} (orderlist : list A) (p : list R) (u : R) : result (A * R) :=
  bind (np_choice orderlist p u) (fun o => Ok (o, Rsum p)).

(** grating.py:94: [np.argmin(np.abs(energy - e))] *)
Fixpoint argmin_from (l : list R) (i best : nat) (bv : R) : nat :=
  match l with [] => best | x :: l' => if Rltb x bv then argmin_from l' (S i) i x else argmin_from l' (S i) best bv end.
Definition argmin (l : list R) : nat := match l with [] => 0%nat | x :: l' => argmin_from l' 1 0 x end.
(** grating.py:78-96: a row of the file is an energy and the list of probabilities. [np.min] of an empty selection is ValueError;
    a row with total 0 gives nan and therefore an empty selection. *)
Definition efffile_init {A} (rows : list (R * list R)) (orders : list A) : result unit :=
  match rows with
  | [] => Err IndexError
  | (_, p) :: _ => if Nat.eqb (length orders) (length p) then Ok tt else Err ValueError
  end.
Definition efffile_call {A} (rows : list (R * list R)) (orders : list A) (e u : R) : result (A * R) :=
  let '(_, p) := nth (argmin (map (fun r => Rabs (fst r - e)) rows)) rows (0, []) in
  let total := Rsum p in
  if Reqb total 0 then Err ValueError else
  let i := ss_right (map (fun x => x / total) (cumsum p)) u in
  if Nat.ltb i (length p)
  then match nth_error orders i with Some o => Ok (o, total) | None => Err IndexError end
  else Err ValueError.
(** catgrating.py:137-144: the interpolated probabilities of one photon are given; argmax over booleans is 0 if none is true *)
Definition interp_call {A} (orders : list A) (p : list R) (u : R) : result (A * R) :=
  let total := Rsum p in
  let i := if Reqb total 0 then 0%nat else
           let i := ss_right (map (fun x => x / total) (cumsum p)) u in
           if Nat.ltb i (length p) then i else 0%nat in
  match nth_error orders i with Some o => Ok (o, total) | None => Err IndexError end.

(** Spec: the sum of the first [j] entries *)
Definition psum (l : list R) (j : nat) : R := Rsum (firstn j l).
(** Spec: histograms that are accepted and can be drawn from *)
Definition increasing (x : list R) : Prop := forall i, (S i < length x)%nat -> nth i x 0 <= nth (S i) x 0.
Definition nonneg (l : list R) : Prop := forall v, In v l -> 0 <= v.
