(** Elements side by side: /repo/marxs/simulator/simulator.py:206-440 (Parallel: elements with numbers, called one after the other, 42-49) for the elements of
    Instrument_Model; /repo/marxs/optics/base.py:205-209 writes the number of the element and the position for the photons that hit. One photon at a time
    ([mosaic]; C210 says why this is enough); tables run through [run]. The column of element numbers is an integer next to the photon. *)
From Verif Require Export Layers_Model.
From Coq Require Export Permutation.
Open Scope R_scope.

(** the elements with their numbers and draws; base.py:206-207 *)
Fixpoint mosaic (l : list (Z * part * draw)) (st : lphoton * Z) : result (lphoton * Z) :=
  match l with
  | [] => Ok st
  | (i, p, dr) :: l => bind (one p dr (fst st)) (fun ph => mosaic l (ph, if draws_for p (fst st) then i else snd st))
  end.
(** simulator.py:438-440: numbers start at [off] *)
Definition numbered (off : Z) (l : list (part * draw)) : list (Z * part * draw) :=
  map (fun ix => ((off + Z.of_nat (fst ix))%Z, fst (snd ix), snd (snd ix))) (combine (seq 0 (length l)) l).

(** ** Spec *)
(** an element that has a place and is not a baffle *)
Definition tile (p : part) : Prop := exists m, layer_of m p /\ perpendicular_axes m.
(** in one plane, without a common point *)
Definition apart (m m' : m4) : Prop :=
  (forall q, dot3 (sub3 q (xyz (center m))) (xyz (v_x m)) = 0 <-> dot3 (sub3 q (xyz (center m'))) (xyz (v_x m')) = 0) /\
  (forall q a b a' b', in_rectangle m a b q -> in_rectangle m' a' b' q -> False).
Definition beside (p p' : part) : Prop := forall m m', geometry p = Some m -> geometry p' = Some m' -> apart m m'.
Definition side_by_side (ps : list part) : Prop := Forall tile ps /\ ForallOrdPairs beside ps.
(** same axes, the center of [m'] is [dy] and [dz] half sides away *)
Definition offset (m m' : m4) (dy dz : R) : Prop :=
  xyz (v_x m') = xyz (v_x m) /\ xyz (v_y m') = xyz (v_y m) /\ xyz (v_z m') = xyz (v_z m) /\
  xyz (center m') = add3 (xyz (center m)) (add3 (scale3 dy (xyz (v_y m))) (scale3 dz (xyz (v_z m)))).
