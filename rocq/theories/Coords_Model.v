(** Homogeneous and Pluecker coordinates: models /repo/marxs/math/utils.py:10-84 and /repo/marxs/math/pluecker.py.
    Arrays of shape (N, 4) are lists of [v4]. *)
From Verif Require Export Vec_Model.
Open Scope R_scope.

(** math/utils.py:10-35 [e2h] *)
Definition e2h (e : list v3) (w : R) : result (list v4) :=
  if negb (Reqb w 0 || Reqb w 1) then Err ValueError else Ok (map (fun v => hom v w) e).

(** math/utils.py:38-62 [h2e] *)
Definition h2e (h : list v4) : result (list v3) :=
  if forallb (fun v => Reqb (w4 v) 0) h || forallb (fun v => isclose (w4 v) 1) h then Ok (map xyz h)
  else if forallb (fun v => negb (Reqb (w4 v) 0)) h then Ok (map (fun v => scale3 (/ w4 v) (xyz v)) h)
  else Err ValueError.

(** math/utils.py:65-84 [distance_point_point] for two arrays of shape (N, 4) *)
Definition distance_point_point (p1 p2 : list v4) : result (list R) :=
  bind (h2e p1) (fun e1 => bind (h2e p2) (fun e2 => Ok (map (fun ab => norm3 (sub3 (fst ab) (snd ab))) (combine e1 e2)))).

(** Lines in Pluecker coordinates {U:V} and planes in homogeneous coordinates [N:n] *)
Record line := Line { lU : v3; lV : v3 }.
(** pluecker.py:29-47 *)
Definition e_pointpoint2line (p1 p2 : v3) : line := Line (sub3 p2 p1) (cross3 p2 p1).
(** pluecker.py:50-70 *)
Definition dir_point2line (dir pos : v3) : line := Line dir (cross3 dir pos).
(** pluecker.py:73-99 *)
Definition intersect_line_plane (l : line) (pl : v4) : v4 :=
  hom (sub3 (cross3 (lV l) (xyz pl)) (scale3 (w4 pl) (lU l))) (dot3 (lU l) (xyz pl)).
(** pluecker.py:102-121. nan (zero direction or a point at infinity) is [None]. *)
Definition point_dir2plane (p d : v4) : option v4 :=
  match unit4 d with
  | None => None
  | Some u => if Req_EM_T (w4 p) 0 then None else Some (hom (xyz u) (- dot4 p u / w4 p))
  end.
(** pluecker.py:8-24 [angle_line_plane] *)
Definition angle_line_plane (l : line) (pl : v4) : option R :=
  if Req_EM_T (norm3 (lU l) * norm3 (xyz pl)) 0 then None
  else Some (acos (dot3 (lU l) (xyz pl) / (norm3 (lU l) * norm3 (xyz pl)))).

(** Spec: the point [q] is on the line through [pos] along [dir]; on the plane *)
Definition on_line (pos dir q : v3) : Prop := exists t, q = add3 pos (scale3 t dir).
Definition on_plane (pl : v4) (q : v3) : Prop := dot3 (xyz pl) q + w4 pl = 0.
