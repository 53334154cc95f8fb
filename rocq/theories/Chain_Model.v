(** Several elements in a row: /repo/marxs/optics/multiLayerMirror.py:44-91 (two mirrors, as in tests/test_optics/test_multiLayerMirror.py), /repo/marxs/optics/grating.py:233-277
    (two gratings) and /repo/marxs/optics/filter.py:48-53 (global filters). Only specifications are here; the elements are those of Instrument_Model. *)
From Verif Require Export Layers_Model.
Open Scope R_scope.

(** Spec: a mirror that reflects s polarized light completely and no p polarized light, the default of multiLayerMirror.py:32-42 *)
Definition polarizer (dr : draw) : Prop := dr_rs dr = 1 /\ dr_rp dr = 0.
(** Spec: the unit normal of the plane of incidence *)
Definition incidence (m : m4) (d n : v3) : Prop := unit3 (cross3 d (xyz (v_x m))) = Some n.
(** Spec: gratings with the same orientation *)
Definition same_bases (m m' : m4) : Prop := exists a b c, 0 < a /\ 0 < b /\ 0 < c /\ xyz (v_x m') = scale3 a (xyz (v_x m)) /\ xyz (v_y m') = scale3 b (xyz (v_y m)) /\ xyz (v_z m') = scale3 c (xyz (v_z m)).
(** Spec: on which side of the grooves is the direction: positive on the side of [d] and along the grooves *)
Definition side (d p : v3) : Z := if Rltb (dot3 p d) 0 then (-1)%Z else 1%Z.
