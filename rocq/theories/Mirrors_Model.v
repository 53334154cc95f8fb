(** Whole mirrors of missions: models /repo/marxs/missions/lynx/mirror.py:37-53 (MetaShellMirror, used by Lynx and AXIS) and /repo/marxs/missions/athena/spo.py (aperture and
    SimpleSPOs of Athena; SPOChannelMirror is also used by Arcus). One photon at a time, random draws are arguments, nan is [None]. Polarization is left out. *)
From Verif Require Export Lynx_Model ArcusSpo_Model Telescope_Model Scatter_Model.
Open Scope R_scope.

(** ** MetaShellMirror *)
(** mirror.py:43-48: position and size; [np.max] of an empty column is a ValueError *)
Definition metashell_mirror (f : R) (table : list shell) : result m4 :=
  bind (vmax (map (fun s => sh_out s * (11 / 10)) table)) (fun r =>
  bind (parse_position [("position", Arr [f; 0; 0]); ("zoom", Arr [20; r; r])]%string) (fun mr => Ok (fst mr))).
(** mirror.py:49-53 with optics/base.py:261-281: a lens with the default reflectivity 1, then the scatter. Photons that miss the mirror are left alone. *)
Definition shell_mirror (m : m4) (f : R) (inplane perp : option R) (r : ray) : option ray :=
  match plane_intersect m (hom (y_dir r) 0) (hom (y_pos r) 1) with
  | (true, Some q, _) =>
      match perfect_lens m 0 f (fun _ => 1) (y_dir r) (xyz q) with
      | Some (out, p) => match radial_scatter (xyz (center m)) (xyz q) out inplane perp with Some d => Some (Ray d (xyz q) (y_prob r * p)) | None => None end
      | None => None
      end
  | _ => Some r
  end.
(** mirror.py:12-34 and aperture.py:68-78, 138-146: a photon of direction [d] behind the aperture of the shell *)
Definition shell_enter (f : R) (s : shell) (d : v3) (u1 u2 : R) : option ray :=
  let a := shell_aper f s in
  match projected (ap_pos a) (hom d 0) with
  | Some p => Some (Ray d (xyz (place (ap_pos a) (circ_xy (ap_pos a) 0 (2 * PI) (ap_in a) u1 u2))) p)
  | None => None
  end.

(** ** SimpleSPOs *)
(** spo.py:54-58 *)
Definition athena_aperture (geom : list spo_row) : result m4 :=
  bind (vmax (map s_outer geom)) (fun r =>
  bind (parse_position [("position", Arr [0; 0; 12200]); ("zoom", Arr [1; r * (105 / 100); r * (105 / 100)]); ("orientation", Mat3 (lin xyz2zxy))]%string) (fun mr => Ok (fst mr))).
(** spo.py:77-85: the keywords for the mirrors *)
Definition spo_args (geom : list spo_row) (fl : list R) (refl : pyv) : dict pyv :=
  [("d_center_optical_axis", Lst (map (fun g => Num (s_rmid g)) geom)); ("focallength", Lst (map Num fl)); ("reflectivity_interpolator", refl)]%string.
(** spo.py:148-166 *)
Definition athena_mirror (geom : list spo_row) (fl : list R) (refl : pyv) (name : nat -> pyv) : parallel :=
  new_parallel (compose (V3 0 0 12000) id3 ones3) (spo_pos4d geom) (spo_args geom fl refl) 0 name.
Record xphoton := XPh { x_ray : ray; x_xou : Z }.
(** simulator.py:42-49 and optics/base.py:144-211: all mirrors one after the other; a mirror is its position, radius and focal length *)
Definition one_spo (refl : R -> R) (k : Z) (m : m4) (rmid f : R) (p : xphoton) : option xphoton :=
  match plane_intersect m (hom (y_dir (x_ray p)) 0) (hom (y_pos (x_ray p)) 1) with
  | (true, Some q, _) => match perfect_lens m rmid f refl (y_dir (x_ray p)) (xyz q) with
                         | Some (out, pr) => Some (XPh (Ray out (xyz q) (y_prob (x_ray p) * pr)) k)
                         | None => None
                         end
  | _ => Some p
  end.
Fixpoint spos (refl : R -> R) (k : Z) (l : list (m4 * R * R)) (p : xphoton) : option xphoton :=
  match l with
  | [] => Some p
  | (m, rmid, f) :: rest => match one_spo refl k m rmid f p with Some p => spos refl (k + 1) rest p | None => None end
  end.
(** spo.py:157-165: scatter for the numbers 0 to 9999, mounting, throughput and the loss at the energy of the photon ([ValueError] if the table does not have it) *)
Definition spo_rest (scatter : v3 -> v3) (loss : result R) (p : xphoton) : result xphoton :=
  let r := x_ray p in
  let d := if in_channel (0, 10000)%Z (x_xou p) then scatter (y_dir r) else y_dir r in
  let pr := if (x_xou p <? 0)%Z then 0 else y_prob r in
  bind loss (fun t => if (Rleb 0 t && Rleb t 1)%bool then Ok (XPh (Ray d (y_pos r) (pr * (92609 / 100000) * t)) (x_xou p)) else Err ValueError).
Definition athena_spos (refl : R -> R) (scatter : v3 -> v3) (loss : result R) (l : list (m4 * R * R)) (r : ray) : result (option xphoton) :=
  match spos refl 0 l (XPh r (-1)) with Some p => bind (spo_rest scatter loss p) (fun q => Ok (Some q)) | None => Ok None end.

(** ** Spec *)
(** the angle of a draw: a width of 0 is no scatter *)
Definition drawn (o : option R) : R := match o with Some a => a | None => 0 end.
Definition inside (m : m4) (q : v3) : Prop := exists a b, in_rectangle m a b q.
(** a mirror in the plane z = 12000 with the optical axis of its lens at [ax] *)
Definition spo_at (ax : v3) (g : spo_row) (m : m4) : Prop :=
  perpendicular_axes m /\ v_x m = V4 0 0 (s_len g) 0 /\ sub3 (tra m) (scale3 (s_rmid g / norm3 (xyz (v_z m))) (xyz (v_z m))) = ax.
