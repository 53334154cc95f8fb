(** Order sorting: models /repo/marxs/reduction/osip.py:62-207, 335-528 and /repo/marxs/reduction/ogip.py:16-39 (file names). *)
From Coq Require Import DecimalString DecimalZ.
From Verif Require Export Rmf_Model Sampling_Model.
Open Scope R_scope.

(** ** Windows, for one energy *)
(** osip.py:62-84 [OSIPBase.osip_tab], for a subclass that has [osip_range] *)
Definition base_tab (osip_range : R -> Z -> R * R) (e : R) (order : Z) : R * R :=
  let r := osip_range e order in (e + fst r * -1, e + snd r * 1).
(** osip.py:87-113 [OSIPBase.osip_range], for a subclass that has [osip_tab] *)
Definition base_range (osip_tab : R -> Z -> R * R) (e : R) (order : Z) : R * R :=
  let t := osip_tab e order in (e + fst t * -1, e + snd t * 1).
(** osip.py:434-437 [FixedWidthOSIP.osip_tab] *)
Definition fixed_width_tab (halfwidth : R) (e : R) (order : Z) : R * R := (halfwidth, halfwidth).
(** osip.py:479-481 [FixedFractionOSIP.osip_range]; detector.py:191-193 [interval]. [q]: the interval of the standard normal distribution for the
    fraction, [sigma]: the width of the redistribution. *)
Definition fixed_fraction_range (q : R * R) (sigma : R -> R) (e : R) (order : Z) : R * R := (fst q * sigma e + e, snd q * sigma e + e).
(** osip.py:523-528 [FractionalDistanceOSIP.osip_tab] *)
Definition fractional_tab (fraction : R) (e : R) (order : Z) : R * R :=
  let dE := e / IZR (Z.abs order) in (fraction / 2 * dE, fraction / 2 * dE).
(** osip.py:115-147 [osip_factor]. Orders 0 and 0 would divide by zero. [cdf x loc]: the redistribution. *)
Definition osip_factor (osip_range : R -> Z -> R * R) (cdf : R -> R -> R) (e_nominal : R) (o_nominal o_true : Z) : result R :=
  if negb (Z.eqb (Z.sgn o_nominal) (Z.sgn o_true)) then Ok 0
  else if Z.eqb o_nominal 0 then Err ValueError
  else
    let r := osip_range e_nominal o_nominal in
    let e_true := e_nominal * (IZR o_true / IZR o_nominal) in
    Ok (cdf (snd r) e_true - cdf (fst r) e_true).
(** osip.py:188-191: the factor for a bin at (true) energy [e] of an ARF of order [m] that is sorted into [order] *)
Definition arf_factor (osip_range : R -> Z -> R * R) (cdf : R -> R -> R) (e : R) (m order : Z) : result R :=
  osip_factor osip_range cdf (e / IZR m * IZR order) order m.

(** ** Applying it to an ARF *)
(** A number, [None]: nan or infinite *)
Definition num := option R.
Definition num_eqb (a b : num) : bool := match a, b with Some x, Some y => Reqb x y | _, _ => false end.
Definition num_mul (a b : num) : num := match a, b with Some x, Some y => Some (x * y) | _, _ => None end.
Definition num_div (a b : num) : num := match a, b with Some x, Some y => if Reqb y 0 then None else Some (x / y) | _, _ => None end.
(** numpy arithmetic with broadcasting of scalars; arrays have the same length *)
Definition val2 (f : num -> num -> num) (a b : @val num) : @val num :=
  match a, b with
  | Scalar x, Scalar y => Scalar (f x y)
  | Scalar x, Array l => Array (map (f x) l)
  | Array l, Scalar y => Array (map (fun x => f x y) l)
  | Array l, Array l' => Array (map (fun p => f (fst p) (snd p)) (combine l l'))
  end.
(** osip.py:180-193 [apply_osip]: the table after the call, which is written to a file. [fac]: the result of [osip_factor] for the energies. *)
Definition apply_osip (arf : @cktable num) (fac : @val num) : result (@cktable num) :=
  bind (ck_get arf "SPECRESP") (fun s =>
  bind (match ck_get arf "OSIPFAC" with Ok f => ck_set num_eqb arf "SPECRESP" (val2 num_div s f) | Err _ => Ok arf end) (fun arf1 =>
  bind (ck_get arf1 "SPECRESP") (fun s1 =>
  bind (ck_set num_eqb arf1 "SPECRESP" (val2 num_mul fac s1)) (fun arf2 => ck_set num_eqb arf2 "OSIPFAC" fac)))).
(** Spec: the effective area in [n] bins *)
Definition area (n : nat) (arf : @cktable num) : result (list num) :=
  bind (ck_get arf "SPECRESP") (fun v => match v with Scalar x => Ok (repeat x n) | Array l => Ok l end).
(** Spec: an ARF without order sorting *)
Definition plain_arf (s : list num) : @cktable num := CK [] [("SPECRESP", s)].

(** ** File names *)
Definition str_int (z : Z) : string := NilEmpty.string_of_int (Z.to_int z).
(** python format [:+] *)
Definition str_signed (z : Z) : string := if (z <? 0)%Z then str_int z else String.append "+" (str_int z).
Inductive kwval := KStr (s : string) | KInt (z : Z).
Definition kw_text (v : kwval) : string := match v with KStr s => s | KInt z => str_signed z end.
(** ogip.py:16-39 [filename_from_meta] *)
Definition filename_from_meta (filetype : string) (kw : dict kwval) : result string :=
  bind (match dget "CCDORDER" kw with
        | Some c => match dget "TRUEORD" kw with
                    | Some t => Ok (String.append "_ccdord_" (String.append (kw_text c) (String.append "_true_" (kw_text t))))
                    | None => Err KeyError
                    end
        | None => match dget "ORDER" kw with Some o => Ok (String.append "_" (kw_text o)) | None => Err KeyError end
        end) (fun name => Ok (String.append name (String.append "." filetype))).
(** the file that [apply_osip] writes (osip.py:195-207): the orders are in the header as text *)
Definition out_name (m order : Z) : result string :=
  filename_from_meta "arf" [("ORDER", KInt m); ("TRUEORD", KStr (str_int m)); ("CCDORDER", KStr (str_int order))].
Definition in_name (o : Z) : result string := filename_from_meta "arf" [("ORDER", KInt o)].

(** osip.py:372-389 [apply_osip_all]: the pairs (order, true order) for which a file is written. [exists_in]: there is an input ARF. *)
Definition osip_pairs (offset_orders : list Z) (exists_in : Z -> bool) (orders : list Z) : list (Z * Z) :=
  flat_map (fun order => flat_map (fun t =>
    if (negb (Z.eqb (order + t) 0) && Z.eqb (Z.sgn order) (Z.sgn (order + t)) && exists_in (order + t)%Z)%bool then [(order, (order + t)%Z)] else []) offset_orders) orders.
(** osip.py:139-140, 188-191: the factors for all bins; a plain 0 if the orders are on different sides of order zero *)
Definition arf_factors (osip_range : R -> Z -> R * R) (cdf : R -> R -> R) (energies : list R) (m order : Z) : result (@val num) :=
  if negb (Z.eqb (Z.sgn order) (Z.sgn m)) then Ok (Scalar (Some 0))
  else bind (sequence (map (fun e => arf_factor osip_range cdf e m order) energies)) (fun l => Ok (Array (map Some l))).

(** ** Spec *)
(** Spec: widths below and above the energy and the bounds of the window agree *)
Definition consistent (osip_tab osip_range : R -> Z -> R * R) : Prop :=
  forall e order, osip_range e order = (e - fst (osip_tab e order), e + snd (osip_tab e order)).
(** Spec: order [n] is not zero and on the same side as order [m] *)
Definition same_side (m n : Z) : Prop := n <> 0%Z /\ Z.sgn n = Z.sgn m.
(** Spec: one number per bin, for [n] bins *)
Definition expand (n : nat) (v : @val num) : list num := match v with Scalar x => repeat x n | Array l => l end.
Definition nonzero (v : @val num) : Prop := match v with Scalar x => exists r, x = Some r /\ r <> 0 | Array l => Forall (fun x => exists r, x = Some r /\ r <> 0) l end.
