(** The complete CAT grating: models /repo/marxs/missions/mitsnl/catgrating.py:257-375 (L2Diffraction, CATL1L2Stack) on top of the layers in Mission_Model, and the order
    selectors of /repo/marxs/missions/mitsnl/tolerances.py:14-53. One photon that hits the stack. Polarization is left out. *)
From Verif Require Export Grating_Model Scatter_Model Sampling_Model Mission_Model Position_Model.
Open Scope R_scope.

(** ** Layers *)
Record dims := Dims { di_depth : R; di_period : R; di_width : R }.
(** Position, period of the bars, groove angle, sigma and d of the quality factor, L1 and L2 support *)
Record stack := Stack { k_pos : m4; k_d : R; k_groove : R; k_sigma : R; k_qd : R; k_l1 : dims; k_l2 : dims }.
Record sphot := SP { s_dir : v3; s_prob : R; s_energy : R; s_order : Z; s_order_L1 : Z }.
(** What is drawn: order and total probability from the order selector, the same for L1, uniform number for L1, normal and uniform number for the scatter *)
Record sdraw := SD { q_m : Z; q_p : R; q_m1 : Z; q_p1 : R; q_u1 : R; q_normal : R; q_u2 : R }.
Section Layers.
(** energy2wave; transmission of the L1 bars, with [ValueError] outside of the table *)
Variable hc : R.
Variable trans : R -> result R.
(** catgrating.py:281-312 and grating.py:233-277. [None]: the direction is nan. In a stack there is no blaze_center and no d_blaze_mm, see [cat_stack]. *)
Definition layer_cat (k : stack) (q : sdraw) (p : sphot) : option sphot :=
  match grating CATSign true (k_pos k) (k_groove k) (s_dir p) (q_m q) (hc / s_energy p) (k_d k) with
  | Some (dir, _) => Some (SP dir (s_prob p * q_p q) (s_energy p) (q_m q) (s_order_L1 p))
  | None => None
  end.
(** catgrating.py:147-162 *)
Definition layer_quality (k : stack) (p : sphot) : sphot := SP (s_dir p) (s_prob p * qf_probability (qf_factor (k_sigma k) (k_qd k)) (s_order p)) (s_energy p) (s_order p) (s_order_L1 p).
(** catgrating.py:171-215: groove angle of line 371; the photons behind a bar are set back, also if the diffraction gave nan *)
Definition layer_L1 (k : stack) (q : sdraw) (p : sphot) : result (option sphot) :=
  if Rltb (l1_open (di_width (k_l1 k)) (di_period (k_l1 k))) (q_u1 q)
  then bind (trans (s_energy p)) (fun t => Ok (Some (SP (s_dir p) (s_prob p * t) (s_energy p) (s_order p) 0)))
  else Ok (match grating CATSign true (k_pos k) (PI / 2 + k_groove k) (s_dir p) (q_m1 q) (hc / s_energy p) (di_period (k_l1 k)) with
           | Some (dir, _) => Some (SP dir (s_prob p * q_p1 q) (s_energy p) (s_order p) (q_m1 q))
           | None => None
           end).
(** catgrating.py:218-254 *)
Definition layer_L2 (k : stack) (p : sphot) : option sphot :=
  match unit3 (s_dir p), plane_bases (k_pos k) with
  | Some u, Some (_, _, en) => Some (SP (s_dir p) (s_prob p * l2_probability (di_depth (k_l2 k)) (di_period (k_l2 k)) (di_width (k_l2 k)) (dot3 u (xyz en))) (s_energy p) (s_order p) (s_order_L1 p))
  | _, _ => None
  end.
(** catgrating.py:257-278: the radius of the Airy disk times 0.4; arcsin of a number larger than 1 is nan *)
Definition airy_sigma (l2 : dims) (wave : R) : option R :=
  let x := wave / (di_period l2 - di_width l2) in if Rleb (Rabs x) 1 then Some (122 / 100 * (4 / 10) * asin x) else None.
Definition layer_scatter (k : stack) (q : sdraw) (p : sphot) : option sphot :=
  match airy_sigma (k_l2 k) (hc / s_energy p) with
  | Some sigma => match random_scatter (s_dir p) (Some (q_normal q * sigma, q_u2 q)) with
                  | Some dir => Some (SP dir (s_prob p) (s_energy p) (s_order p) (s_order_L1 p))
                  | None => None
                  end
  | None => None
  end.
(** All layers, optics/base.py:261-281. A photon with a direction that is nan stays so. *)
Definition cat_photon (k : stack) (q : sdraw) (p : sphot) : result (option sphot) :=
  match layer_cat k q p with
  | None => Ok None
  | Some p1 => bind (layer_L1 k q (layer_quality k p1)) (fun o =>
      Ok (match o with
          | Some p2 => match layer_L2 k p2 with Some p3 => layer_scatter k q p3 | None => None end
          | None => None
          end))
  end.
End Layers.

(** ** 358-415: construction *)
Definition arg (key : string) (default : pyv) (kw : dict pyv) : pyv * dict pyv := (match dget key kw with Some v => v | None => default end, ddel key kw).
(** The module variables are objects: [l1_dims] 1, [l2_dims] 2, [l1_order_selector] 3, [qualityfactor] 4 *)
Definition cat_layers (l1 l2 sel1 qf sel d : pyv) (groove : R) : list (string * dict pyv) :=
  [("NonParallelCATGrating", [("order_selector", sel); ("d", d); ("groove_angle", Num groove)]);
   ("QualityFactor", [("qualityfactor", qf)]);
   ("L1", [("l1_dims", l1); ("order_selector", sel1); ("groove_angle", Num (PI / 2 + groove))]);
   ("L2Abs", [("l2_dims", l2)]); ("L2Diffraction", [("l2_dims", l2)])]%string.
(** optics/base.py:250-256, 81-92, simulator.py:34-40, base/base.py:242-247, 78-87: what is left goes to FlatStack, which knows the position, a geometry, id_col,
    id_num, name and the steps before and after. The keyword geometry is not modelled. The steps are accepted, but [OpticalElement.__call__] comes first in the method
    resolution order and never runs them. *)
Definition flat_rest (kw : dict pyv) : result m4 :=
  bind (parse_position kw) (fun '(m, kw) =>
  match ddel "name" (ddel "id_num" (ddel "id_col" (ddel "postprocess_steps" (ddel "preprocess_steps" kw))))%string with
  | [] => Ok m
  | _ => Err ValueError
  end).
Definition cat_stack (kw : dict pyv) : result (m4 * list (string * dict pyv)) :=
  let '(l1, kw) := arg "l1_dims" (Obj 1) kw in
  let '(l2, kw) := arg "l2_dims" (Obj 2) kw in
  let '(sel1, kw) := arg "l1_order_selector" (Obj 3) kw in
  let '(qf, kw) := arg "qualityfactor" (Obj 4) kw in
  let '(groove, kw) := arg "groove_angle" (Num 0) kw in
  match dget "order_selector" kw with
  | None => Err KeyError
  | Some sel =>
      let '(d, kw) := arg "d" (Num (2 / 10000)) (ddel "order_selector" kw) in
      match groove with
      | Num g => bind (flat_rest (ddel "keywords" (ddel "elements" kw))%string) (fun m => Ok (m, cat_layers l1 l2 sel1 qf sel d g))
      | _ => Err TypeError
      end
  end.

(** ** tolerances.py:14-53: order selectors with a random change of the blaze angle. [table energy blaze]: interpolated probabilities *)
Section Tilted.
Variable table : R -> R -> list R.
Definition plain_select (orders : list Z) (energy blaze u : R) : result (Z * R) := interp_call orders (table energy blaze) u.
(** [normal]: standard normal distribution, [v]: uniform in [0, 1) *)
Definition wavy_angle (sigma normal blaze : R) : R := blaze + sigma * normal.
Definition tophat_angle (width v blaze : R) : R := blaze + width * (v - 1 / 2).
Definition wavy_select (orders : list Z) (sigma normal energy blaze u : R) : result (Z * R) := interp_call orders (table energy (wavy_angle sigma normal blaze)) u.
Definition tophat_select (orders : list Z) (width v energy blaze u : R) : result (Z * R) := interp_call orders (table energy (tophat_angle width v blaze)) u.
End Tilted.
