(** Position keywords: models /repo/marxs/base/base.py:292-336, /repo/marxs/math/utils.py:87-146 and the functions
    [compose] and [decompose44] of transforms3d.affines that the code uses. *)
From Verif Require Export Vec_Model.
Open Scope R_scope.

(** math/utils.py:87-146 for correctly shaped input (the length checks are part of [parse_position] below) *)
Definition diag3 (z : v3) : m3 := M3 (V3 (x3 z) 0 0) (V3 0 (y3 z) 0) (V3 0 0 (z3 z)).
Definition translation2aff (t : v3) : m4 := aff id3 t.
Definition mat2aff (m : m3) : m4 := aff m zero3.
Definition zoom2aff (z : v3) : m4 := aff (diag3 z) zero3.
(** transforms3d.affines.compose(T, R, Z): [A[:3, :3] = R . diag(Z); A[:3, 3] = T] *)
Definition compose (t : v3) (r : m3) (z : v3) : m4 := aff (mul3 r (diag3 z)) t.

(** transforms3d.affines.decompose44: Gram-Schmidt on the columns. [None]: a division by 0 (nan in the result). The last row
    of the matrix is not looked at. *)
Definition decompose44 (m : m4) : option (v3 * m3 * v3 * v3) :=
  let t := xyz (b3 m) in
  let M0 := xyz (b0 m) in let M1 := xyz (b1 m) in let M2 := xyz (b2 m) in
  let sx := norm3 M0 in
  if Reqb sx 0 then None else
  let M0 := scale3 (/ sx) M0 in
  let sx_sxy := dot3 M0 M1 in
  let M1 := sub3 M1 (scale3 sx_sxy M0) in
  let sy := norm3 M1 in
  if Reqb sy 0 then None else
  let M1 := scale3 (/ sy) M1 in
  let sxy := sx_sxy / sx in
  let sx_sxz := dot3 M0 M2 in
  let sy_syz := dot3 M1 M2 in
  let M2 := sub3 M2 (add3 (scale3 sx_sxz M0) (scale3 sy_syz M1)) in
  let sz := norm3 M2 in
  if Reqb sz 0 then None else
  let M2 := scale3 (/ sz) M2 in
  let sxz := sx_sxz / sx in
  let syz := sy_syz / sy in
  if Rltb (det3 (M3 M0 M1 M2)) 0
  then Some (t, M3 (neg3 M0) M1 M2, V3 (- sx) sy sz, V3 sxy sxz syz)
  else Some (t, M3 M0 M1 M2, V3 sx sy sz, V3 sxy sxz syz).

(** Values of keyword arguments, as far as the code looks at them. [Arr]: a one-dimensional array or tuple of numbers;
    [Lst]: a python list; [Obj]: anything else (strings, classes, ...), identified by a number. *)
Inductive pyv :=
| Num (r : R)
| Arr (l : list R)
| Mat3 (m : m3)
| Mat4 (m : m4)
| Obj (n : nat)
| Lst (l : list pyv).

(** numbers in a sequence *)
Fixpoint nums (l : list pyv) : option (list R) :=
  match l with
  | [] => Some []
  | Num r :: l' => match nums l' with Some rs => Some (r :: rs) | None => None end
  | _ => None
  end.
Definition as_seq (v : pyv) : option (list R) :=
  match v with Arr l => Some l | Lst l => nums l | _ => None end.

(** base.py:318-336 [_parse_position_keywords]: returns the matrix and the keywords that are left. Inputs of the wrong type
    raise TypeError here; the code raises TypeError or ValueError depending on the type. *)
Definition check_det (m : m4) (rest : dict pyv) : result (m4 * dict pyv) :=
  if Reqb (det4 m) 0 then Err ValueError else Ok (m, rest).
Definition parse_position (kw : dict pyv) : result (m4 * dict pyv) :=
  match dget "pos4d"%string kw with
  | None =>
      let rest := ddel "zoom"%string (ddel "orientation"%string (ddel "position"%string kw)) in
      let zoom := match dget "zoom"%string kw with
                  | None => Ok [1; 1; 1]
                  | Some (Num z) => Ok [z; z; z]
                  | Some v => match as_seq v with Some l => Ok l | None => Err TypeError end
                  end in
      bind zoom (fun zl =>
      match zl with
      | [zx; zy; zz] =>
          if Rleb zx 0 || Rleb zy 0 || Rleb zz 0 then Err ValueError else
          let position := match dget "position"%string kw with
                          | None => Ok zero3
                          | Some v => match as_seq v with
                                      | Some [px; py; pz] => Ok (V3 px py pz)
                                      | Some _ => Err ValueError
                                      | None => Err TypeError
                                      end
                          end in
          bind position (fun t =>
          let orientation := match dget "orientation"%string kw with
                             | None => Ok id3
                             | Some (Mat3 r) => Ok r
                             | Some _ => Err TypeError
                             end in
          bind orientation (fun r => check_det (compose t r (V3 zx zy zz)) rest))
      | _ => Err ValueError
      end)
  | Some (Mat4 m) =>
      if din "position"%string kw || din "orientation"%string kw || din "zoom"%string kw then Err ValueError
      else check_det m (ddel "pos4d"%string kw)
  | Some _ => Err TypeError
  end.

(** Spec: the values given for position, orientation and zoom, with their defaults *)
Definition given_position (kw : dict pyv) (t : v3) : Prop :=
  match dget "position"%string kw with None => t = zero3 | Some v => as_seq v = Some [x3 t; y3 t; z3 t] end.
Definition given_orientation (kw : dict pyv) (r : m3) : Prop :=
  match dget "orientation"%string kw with None => r = id3 | Some v => v = Mat3 r end.
Definition given_zoom (kw : dict pyv) (l : list R) : Prop :=
  match dget "zoom"%string kw with None => l = [1; 1; 1] | Some (Num z) => l = [z; z; z] | Some v => as_seq v = Some l end.
