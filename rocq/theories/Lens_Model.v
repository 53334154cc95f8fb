(** Lenses: models /repo/marxs/optics/mirror.py (PerfectLens, ThinLens). One photon at a time; nan is [None]. *)
From Verif Require Export Plane_Model Rot_Model.
Open Scope R_scope.

(** mirror.py:56-62: the point all photons of direction [dir] go to. [h2e] of a point with fourth component 1 drops that component. *)
Definition optical_axis_point (m : m4) (d_center_optax : R) : option v3 :=
  match e_z m with Some ez => Some (xyz (sub4 (center m) (scale4 d_center_optax ez))) | None => None end.
Definition focuspoint (m : m4) (d_center_optax focallength : R) (dir : v3) : option v3 :=
  match optical_axis_point m d_center_optax, unit3 dir with
  | Some p, Some u => Some (add3 p (scale3 focallength u))
  | _, _ => None
  end.
(** mirror.py:53-82: new direction, reflection angle, probability. [reflectivity] is the [reflectivity_interpolator] at the energy of the photon. *)
Definition perfect_lens (m : m4) (d_center_optax focallength : R) (reflectivity : R -> R) (dir interpos : v3) : option (v3 * R) :=
  match focuspoint m d_center_optax focallength dir, unit3 dir with
  | Some f, Some u =>
      match unit3 (sub3 f interpos) with
      | Some out =>
          let angle := acos (Rabs (dot3 out u)) in
          Some (out, reflectivity (angle / 4) * reflectivity (angle / 4))
      | None => None
      end
  | _, _ => None
  end.
(** mirror.py:130-147 [ThinLens.process_photon] for a photon that hits at [hit]: new direction and polarization *)
Definition thin_lens (c : v3) (focallength : R) (dir hit pol : v3) : option (v3 * v3) :=
  let distance := norm3 (sub3 hit c) in
  if Reqb distance 0 then Some (dir, pol)
  else match axangle2mat (cross3 dir (sub3 hit c)) (- distance / focallength) with
       | Some rot => Some (app3 rot dir, app3 rot pol)
       | None => None
       end.
