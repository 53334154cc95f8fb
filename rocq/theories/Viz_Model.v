(** Plotting helpers: models /repo/marxs/visualization/utils.py:29-329, /repo/marxs/visualization/x3d.py:251-281, 389-456,
    /repo/marxs/visualization/threejs.py:45-92 and /repo/marxs/visualization/threejsjson.py:82-98, 199-234. *)
From Coq Require Import Ascii.
From Verif Require Export Vec_Model.
Open Scope nat_scope.

(** ** Triangulations *)
Definition tri := (nat * nat * nat)%type.
(** utils.py:246-264 [plane_with_hole]: the triangles; the points are the [n_out] outer ones followed by the [n_in] inner ones.
    [ge i i_in] is the result of the floating point comparison [i/n >= i_in/n_in]. n_in = 0 is a division by zero, n_out = 0 is excluded, too. *)
Fixpoint pwh_loop (ge : nat -> nat -> bool) (n_out n_in : nat) (fuel i i_in i_out : nat) : list tri :=
  match fuel with
  | O => []
  | S k =>
      if ge i i_in
      then (i_out, n_out + i_in, n_out + (i_in + 1) mod n_in) :: pwh_loop ge n_out n_in k (S i) (S i_in) i_out
      else ((i_out + 1) mod n_out, i_out, n_out + i_in mod n_in) :: pwh_loop ge n_out n_in k (S i) i_in ((i_out + 1) mod n_out)
  end.
Definition plane_with_hole {P} (ge : nat -> nat -> bool) (outer inner : list P) : list P * list tri :=
  (outer ++ inner, pwh_loop ge (length outer) (length inner) (length outer + length inner) 0 0 0).
(** The comparison of the two quotients without rounding *)
Definition ge_exact (n_out n_in i i_in : nat) : bool := i_in * (n_out + n_in) <=? i * n_in.
(** Spec: a comparison of correctly rounded quotients: true if it is true without rounding, and i/n is not rounded to 1 for i < n. *)
Definition sound_ge (n_out n_in : nat) (ge : nat -> nat -> bool) : Prop :=
  (forall i a, ge_exact n_out n_in i a = true -> ge i a = true) /\ (forall i, i < n_out + n_in -> ge i n_in = false).
(** Spec: the edges along the inner and the outer boundary, and the two edges between the boundaries ("spokes"), in the order of the triangles *)
Definition is_inner (n_out : nat) (t : tri) : bool := let '(a, b, c) := t in n_out <=? b.
Definition inner_edge (t : tri) : nat * nat := let '(a, b, c) := t in (b, c).
Definition outer_edge (t : tri) : nat * nat := let '(a, b, c) := t in (a, b).
Definition spoke_first (n_out : nat) (t : tri) : nat * nat := let '(a, b, c) := t in if n_out <=? b then (a, b) else (b, c).
Definition spoke_second (n_out : nat) (t : tri) : nat * nat := let '(a, b, c) := t in (a, c).
(** Spec: the three points of a triangle *)
Definition corners {P} (pts : list P) (t : tri) : option P * option P * option P := let '(a, b, c) := t in (nth_error pts a, nth_error pts b, nth_error pts c).
Definition tri_ok (n : nat) (t : tri) : Prop := let '(a, b, c) := t in a < n /\ b < n /\ c < n.

(** utils.py:267-297 [combine_disjoint_triangulations] *)
Fixpoint cumsum_nat (acc : nat) (l : list nat) : list nat := match l with [] => [] | x :: r => (acc + x) :: cumsum_nat (acc + x) r end.
Definition shift_tri (k : nat) (t : tri) : tri := let '(a, b, c) := t in (a + k, b + k, c + k).
Definition combine_disjoint {P} (list_xyz : list (list P)) (list_triangles : list (list tri)) : result (list P * list tri) :=
  match cumsum_nat 0 (map (@length P) list_xyz) with
  | [] => Err ValueError
  | (c0 :: _) as cs =>
      let n_offset := map (fun c => c - c0) cs in
      if length list_triangles <? length n_offset then Err IndexError
      else Ok (concat list_xyz, concat (map (fun p => map (shift_tri (fst p)) (snd p)) (combine n_offset list_triangles)))
  end.
(** utils.py:300-305 [triangulate_parametricsurface]: the triangles for [n] points *)
Definition triangulate_parametricsurface (n : nat) : list tri := map (fun i => (i, i + 1, i + 2)) (seq 0 (n - 2)).
(** x3d.py:261-276 [surface]: faces (four corners each) of a grid of n times m points *)
Definition grid_index (m i j : nat) : nat := i * m + j.
Definition surface_faces (n m : nat) : list (list nat) :=
  flat_map (fun i => map (fun j => [grid_index m i j; grid_index m i (j + 1); grid_index m (i + 1) (j + 1); grid_index m (i + 1) j]) (seq 0 (m - 1))) (seq 0 (n - 1)).

(** ** Boxes *)
Local Open Scope Z_scope.
Definition z3t := (Z * Z * Z)%type.
Definition box_corners : list z3t := [(-1,-1,-1); (-1,1,-1); (-1,-1,1); (-1,1,1); (1,-1,-1); (1,1,-1); (1,-1,1); (1,1,1)].
Definition coord (j : nat) (c : z3t) : Z := let '(x, y, z) := c in match j with O => x | S O => y | _ => z end.
Definition set_coord (j : nat) (v : Z) (c : z3t) : z3t := let '(x, y, z) := c in match j with O => (v, y, z) | S O => (x, v, z) | _ => (x, y, v) end.
(** utils.py:308-329 [halfbox_corners] before the coordinate transformation; [None]: no such key. Too short values raise IndexError, which is caught. *)
Definition halfbox (half : option string) : list z3t :=
  match half with
  | Some (String s (String a _)) =>
      let factor := if Ascii.eqb s "+" then 1 else if Ascii.eqb s "-" then -1 else 0 in
      let j := if Ascii.eqb a "x" then Some 0%nat else if Ascii.eqb a "y" then Some 1%nat else if Ascii.eqb a "z" then Some 2%nat else None in
      match j with
      | Some j => map (fun c => if Z.eqb (coord j c) factor then set_coord j 0 c else c) box_corners
      | None => box_corners
      end
  | _ => box_corners
  end.
(** x3d.py:311-342: faces of the box; mayavi.py:101-102: its triangles *)
Definition box_faces : list (list nat) := [[0; 2; 3; 1]; [4; 6; 7; 5]; [0; 4; 6; 2]; [1; 5; 7; 3]; [0; 4; 5; 1]; [2; 6; 7; 3]]%nat.
Definition box_triangles : list (list nat) :=
  [[0;2;6]; [0;4;6]; [0;1;5]; [0;4;5]; [0;1;3]; [0;2;3]; [7;3;2]; [7;6;2]; [7;3;1]; [7;5;1]; [7;6;4]; [7;5;4]]%nat.

(** ** Colors *)
Inductive cval := CFloat (r : R) | CInt (z : Z) | COther.
Definition is_float (c : cval) : bool := match c with CFloat _ => true | _ => false end.
Definition is_int (c : cval) : bool := match c with CInt _ => true | _ => false end.
Definition fval (c : cval) : R := match c with CFloat r => r | _ => 0%R end.
Definition ival (c : cval) : Z := match c with CInt z => z | _ => 0 end.
(** python [hex] of a number that is not negative, without "0x"; [fuel] digits at most *)
Definition hexdigit (d : Z) : ascii := nth (Z.to_nat d) (list_ascii_of_string "0123456789abcdef") "?"%char.
Fixpoint hexdigits (fuel : nat) (n : Z) : list Z :=
  match fuel with
  | O => [n mod 16]
  | S k => if n <? 16 then [n] else hexdigits k (n / 16) ++ [n mod 16]
  end.
(** [str.zfill] *)
Definition zfill (w : nat) (l : list Z) : list Z := repeat 0 (w - length l) ++ l.
Definition render (l : list Z) : string := String.append "0x" (string_of_list_ascii (map hexdigit l)).
Definition hexstring (n : Z) : string := render (zfill 6 (hexdigits (Z.to_nat n) n)).
(** [int] of a float that is not negative *)
Definition py_int (r : R) : Z := Rfloor r.
(** utils.py:172-199 [color_tuple_to_hex]; only the first three elements are used *)
Definition color_tuple_to_hex (c : list cval) : result string :=
  if forallb is_float c then
    if existsb (fun x => Rltb (fval x) 0 || Rltb 1 (fval x)) c then Err ValueError
    else match c with
         | c0 :: c1 :: c2 :: _ => Ok (hexstring (py_int (fval c0 * (256 * 256) * 255 + fval c1 * 256 * 255 + fval c2 * 255)%R))
         | _ => Err IndexError
         end
  else if forallb is_int c then
    if existsb (fun x => (ival x <? 0) || (255 <? ival x)) c then Err ValueError
    else match c with
         | c0 :: c1 :: c2 :: _ => Ok (hexstring (ival c0 * (256 * 256) + ival c1 * 256 + ival c2))
         | _ => Err IndexError
         end
  else Err ValueError.
(** Spec: two hexadecimal digits *)
Definition two_hex (z : Z) : string := string_of_list_ascii [hexdigit (z / 16); hexdigit (z mod 16)].
(** utils.py:134-169 [get_color]. [to_rgb]: matplotlib's converter. The converter gets the color if it is not a tuple of three floats in 0..1. *)
Inductive colorspec := ColTuple (c : list cval) | ColName (s : string).
Definition unit_floats (c : list cval) : bool := Nat.eqb (length c) 3 && forallb (fun a => is_float a && negb (Rltb (fval a) 0) && negb (Rltb 1 (fval a))) c.
Definition get_color (to_rgb : colorspec -> result (list cval)) (c : option colorspec) : result (list cval) :=
  match c with
  | None => Ok [CFloat 1; CFloat 1; CFloat 1]
  | Some (ColTuple l) => if unit_floats l then Ok l else to_rgb (ColTuple l)
  | Some (ColName s) => to_rgb (ColName s)
  end.

(** ** Display settings *)
Record displaydict (V : Type) := DD { dd_items : dict V; dd_geometry : option (dict V) }.
Arguments DD {V}. Arguments dd_items {V}. Arguments dd_geometry {V}.
(** utils.py:56-63 [DisplayDict.__getitem__]; [dd_geometry]: attributes of the geometry, [None]: the parent has no geometry *)
Definition dd_getitem {V} (d : displaydict V) (k : string) : result V :=
  match dget k (dd_items d), dd_geometry d with
  | Some v, _ => Ok v
  | None, Some g => match dget k g with Some v => Ok v | None => Err KeyError end
  | None, None => Err KeyError
  end.
(** utils.py:65-70 [DisplayDict.get] *)
Definition dd_get {V} (d : displaydict V) (k : string) (dflt : V) : V := match dd_getitem d k with Ok v => v | Err _ => dflt end.
Definition dd_setitem {V} (d : displaydict V) (k : string) (v : V) : displaydict V := DD (dset k v (dd_items d)) (dd_geometry d).
(** [k in d] *)
Definition dd_in {V} (d : displaydict V) (k : string) : bool := din k (dd_items d).

(** ** Dispatch *)
(** python [str.split] for one character, [str.strip] *)
Fixpoint csplit (c : ascii) (cur : list ascii) (s : list ascii) : list (list ascii) :=
  match s with [] => [rev cur] | x :: r => if Ascii.eqb x c then rev cur :: csplit c [] r else csplit c (x :: cur) r end.
Definition is_space (c : ascii) : bool := let n := nat_of_ascii c in (Nat.eqb n 32 || (Nat.leb 9 n && Nat.leb n 13) || (Nat.leb 28 n && Nat.leb n 31))%bool.
Fixpoint lstrip (l : list ascii) : list ascii := match l with x :: r => if is_space x then lstrip r else l | [] => [] end.
Definition strip (l : list ascii) : list ascii := rev (lstrip (rev (lstrip l))).
Definition shapes_of (s : string) : list string := map (fun l => string_of_list_ascii (strip l)) (csplit ";" [] (list_ascii_of_string s)).
Inductive outcome := Plotted (s : string) | Hidden | Warned.
(** utils.py:119-131: which function of the registry is called *)
Fixpoint dispatch (registry : list string) (shapes : list string) : outcome :=
  match shapes with
  | [] => Warned
  | s :: r => if String.eqb s "None" then Hidden else if inb s registry then Plotted s else dispatch registry r
  end.
(** utils.py:102-131 [plot_object_general]; [display]: [None] without display dictionary, [shape]: its "shape" *)
Definition plot_object_general (registry : list string) (display : option (displaydict string)) : outcome :=
  match display with
  | None => Warned
  | Some d => match dd_getitem d "shape" with Ok s => dispatch registry (shapes_of s) | Err _ => Warned end
  end.

(** ** Rays *)
(** A quantity for the colors of the rays *)
Inductive scalars := NoScalar | PerRay (l : list R) | PerPoint (l : list (list R)).
(** x3d.py:414-428: one number for each ray, from data of [n] rays with [N] points *)
Definition ray_colors (n N : nat) (s : scalars) : result (list R) :=
  match s with
  | NoScalar => Ok (repeat 1%R n)
  | PerRay l => if Nat.eqb (length l) n then Ok l else Err ValueError
  | PerPoint l => if (Nat.eqb (length l) n && forallb (fun r => Nat.eqb (length r) N) l)%bool
                  then match l with r :: _ => Ok r | [] => Err IndexError end
                  else Err ValueError
  end.
(** x3d.py:430-456: the sets of rays that are drawn, one set per value; a mask that does not fit is an IndexError. [values]: the distinct values. *)
Definition drawn {A} (rays : list A) (colors values : list R) : result (list (R * list A)) :=
  if negb (Nat.eqb (length colors) (length rays)) then match values with [] => Ok [] | _ => Err IndexError end
  else Ok (map (fun s => (s, map snd (filter (fun p => Reqb (fst p) s) (combine colors rays)))) values).
Definition plot_rays {A} (rays : list A) (N : nat) (s : scalars) (distinct : list R -> list R) : result (list (R * list A)) :=
  bind (ray_colors (length rays) N s) (fun c => drawn rays c (distinct c)).

(** ** three.js *)
(** threejs.py:61-71 [materialdict]: the properties that are used, before the special treatment of colors; [known]: properties of the material *)
Definition materialdict {V} (true_ : V) (known : list string) (display : dict V) : dict V :=
  let spec := filter (fun kv => inb (fst kv) known) display in
  if (din "opacity" display && negb (din "transparent" display))%bool then dset "transparent" true_ spec else spec.
(** threejs.py:90-92 [materialspec]: the loop variable is called k, but [matdict[v]] is used *)
Definition materialspec {V} (matdict : dict V) : result string := match matdict with [] => Ok "" | _ => Err NameError end.
(** threejsjson.py:82-98 [container]: calls plot_obj, which does not exist *)
Definition json_container {A} (elements : list A) : result (list A) := match elements with [] => Ok [] | _ => Err NameError end.
(** threejsjson.py:199-234 [write]: list data; [photons]: photons given? Calling [photons.meta()] is a TypeError, as is indexing the list. *)
Definition json_write {A} (data : list A) (photons : bool) : result (list A) := if photons then Err TypeError else Ok data.
