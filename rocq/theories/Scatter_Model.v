(** Scattering: models /repo/marxs/optics/scatter.py. One photon at a time, random draws are arguments, nan is [None]. *)
From Verif Require Export Rot_Model Angles_Model.
Open Scope R_scope.

(** scatter.py:49-77 [RadialMirrorScatter.specific_process_photons]: new direction. [None] for an angle is a sigma of 0 (no draw), [Some a] a draw. *)
Definition rotate_by (axis : v3) (angle : option R) (dir : v3) : option v3 :=
  match angle with
  | None => Some dir
  | Some a => match axangle2mat axis a with Some rot => Some (einsum_ij_i rot dir) | None => None end
  end.
Definition radial_scatter (center pos dir : v3) (inplane perp : option R) : option v3 :=
  let radial := sub3 pos center in
  let perpplane := cross3 dir radial in
  match rotate_by perpplane inplane dir with
  | Some outdir => rotate_by radial perp outdir
  | None => None
  end.
(** scatter.py:114-145 [RandomGaussianScatter.specific_process_photons]: [None] = zero scatter (empty dictionary), [Some (angle, u)] a scattering angle
    and a uniform draw *)
Definition guessvec (p : v3) : v3 := if Rltb (Rabs (x3 p)) (99999 / 100000) then V3 1 0 0 else V3 0 1 0.
Definition random_scatter (dir : v3) (draw : option (R * R)) : option v3 :=
  match draw with
  | None => Some dir
  | Some (angle, u) =>
      match unit3 dir with
      | None => None
      | Some pdir =>
          match axangle2mat (cross3 pdir (guessvec pdir)) angle with
          | None => None
          | Some rot =>
              let outdir := einsum_ij_i rot pdir in
              match axangle2mat pdir (u * twopi) with
              | None => None
              | Some rot2 => Some (einsum_ij_i rot2 outdir)
              end
          end
      end
  end.
