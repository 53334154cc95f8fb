(** Baffles in a row and in the beam of a lens: notions for statements about the elements of Instrument_Model (/repo/marxs/optics/baffles.py:25-28 with optics/mirror.py:53-82
    and base.py:144-211); no further code. *)
From Verif Require Export Defocus_Model.
Open Scope R_scope.

(** ** Spec *)
(** the ray of [x] in direction [d] crosses the opening after the length [k] *)
Definition crosses (m : m4) (x d : v3) (k : R) : Prop := dot3 d (xyz (v_x m)) <> 0 /\ exists a b, in_rectangle m a b (add3 x (scale3 k d)).
(** the openings are crossed one after the other, the first not before [k0] *)
Fixpoint in_turn (ms : list m4) (x d : v3) (k0 : R) : Prop :=
  match ms with
  | [] => True
  | m :: ms => exists k, k0 <= k /\ crosses m x d k /\ in_turn ms x d k
  end.
(** three perpendicular directions *)
Definition frame (n e f : v3) : Prop := dot3 n n = 1 /\ dot3 e e = 1 /\ dot3 f f = 1 /\ dot3 n e = 0 /\ dot3 n f = 0 /\ dot3 e f = 0.
(** an opening with center [c], normal [n] and half sides [h] along [e], [w] along [f] *)
Definition plate (m : m4) (c n e f : v3) (h w : R) : Prop :=
  affine m /\ xyz (center m) = c /\ xyz (v_x m) = n /\ xyz (v_y m) = scale3 h e /\ xyz (v_z m) = scale3 w f /\ 0 < h /\ 0 < w.
