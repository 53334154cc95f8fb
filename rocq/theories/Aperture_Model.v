(** Apertures: models /repo/marxs/optics/aperture.py:39-218 and /repo/marxs/math/geometry.py:344-356. One photon at a time; all random
    numbers (between 0 and 1) are arguments. *)
From Verif Require Export Plane_Model Sampling_Model.
Open Scope R_scope.

(** [np.random.uniform(a, b)] for the draw [u] *)
Definition uniform (a b u : R) : R := a + (b - a) * u.
(** aperture.py:92-95 *)
Definition rect_xy (u1 u2 : R) : R * R := (u1 * 2 - 1, u2 * 2 - 1).
(** aperture.py:138-146 *)
Definition circ_xy (m : m4) (phi0 phi1 r_inner u1 u2 : R) : R * R :=
  let phi := uniform phi0 phi1 u1 in
  let ri := r_inner / norm4 (v_y m) in
  let r := sqrt (uniform (ri * ri) 1 u2) in
  (r * cos phi, r * sin phi).
(** aperture.py:71-73: the position of the photon *)
Definition place (m : m4) (xy : R * R) : v4 := add4 (add4 (center m) (scale4 (fst xy) (v_y m))) (scale4 (snd xy) (v_z m)).
(** aperture.py:74-78: the factor for the probability; [np.clip] *)
Definition clip (x a b : R) : R := Rmin (Rmax x a) b.
Definition projected (m : m4) (dir : v4) : option R :=
  match unit4 (v_x m) with Some ex => Some (clip (dot4 dir (scale4 (-1) ex)) 0 1) | None => None end.
(** aperture.py:97-100 and 148-152, in square mm *)
Definition rect_area (m : m4) : R := 4 * norm4 (v_y m) * norm4 (v_z m).
Definition circ_area (m : m4) (phi0 phi1 r_inner : R) : R :=
  (phi1 - phi0) / (2 * PI) * (PI * (norm4 (v_y m) * norm4 (v_y m) - r_inner * r_inner)).
(** geometry.py:346-356 and aperture.py:129-136: the checks at construction; [np.isclose] is [isclose] *)
Definition circ_init (m : m4) (phi0 phi1 r_inner : R) : result unit :=
  if Rltb 10 (Rmax (Rabs phi0) (Rabs phi1)) then Err ValueError else
  if Rltb phi1 phi0 then Err ValueError else
  if Rltb (2 * PI + / 1000000) (phi1 - phi0) then Err ValueError else
  if Rltb (norm4 (v_y m)) r_inner then Err ValueError else
  if negb (isclose (norm4 (v_y m)) (norm4 (v_z m))) then Err GeometryError else Ok tt.

(** ** MultiAperture *)
(** aperture.py:196-199 *)
Definition multi_area (areas : list R) : R := Rsum areas.
(** aperture.py:203-205: one draw per photon, then the numbers are shuffled ([perm] is the order that the shuffle produces) *)
Definition multi_id (areas : list R) (u : R) : nat := ss_right (map (fun x => x / multi_area areas) (cumsum areas)) u.
Definition multi_ids (areas us : list R) (perm : list nat) : list nat := map (fun k => nth k (map (multi_id areas) us) 0%nat) perm.
(** aperture.py:187-194, 207-218: [elems] are the functions that an aperture applies to a photon it is given, together with the number
    that it writes to the id column; steps act on the whole list *)
Section Multi.
Context {P : Type}.
Definition apply_steps (steps : list (list P -> list P)) (ph : list P) : list P := fold_left (fun acc s => s acc) steps ph.
Definition process_selected (f : P -> P) (i : nat) (ids : list nat) (ph : list P) : list P :=
  map (fun kp => if Nat.eqb (fst kp) i then f (snd kp) else snd kp) (combine ids ph).
Fixpoint multi_loop (offset : Z) (pre post : list (list P -> list P)) (i : nat) (elems : list (Z -> P -> P)) (ids : list nat) (ph : list P) : list P :=
  match elems with
  | [] => ph
  | e :: rest =>
      let ph := apply_steps pre ph in
      let ph := process_selected (e (offset + Z.of_nat i)%Z) i ids ph in
      let ph := apply_steps post ph in
      multi_loop offset pre post (S i) rest ids ph
  end.
Definition multi_call (offset : Z) pre post elems ids (ph : list P) : list P := multi_loop offset pre post 0 elems ids ph.
End Multi.
