(** Effective areas of whole instruments: the photon list of Instrument_Model as seen by /repo/marxs/analysis/gratings.py:333-363 (Analysis_Model); this file only has the
    notions the statements need. *)
From Verif Require Export Instrument_Model Analysis_Model.
Open Scope R_scope.

(** ** Spec *)
(** the photons with their column of grating orders *)
Definition value_of (pr : option R) : R := match pr with Some p => p | None => 0 end.
Definition analysed (orders : list Z) (t : ctable) : list aphot := zip2 (fun o pr => AP o (value_of pr) None 0) orders (c_prob t).
(** all probabilities are numbers in 0..1 *)
Definition sensible (t : ctable) : Prop := Forall (fun pr => exists p, pr = Some p /\ 0 <= p <= 1) (c_prob t).
(** no probability is nan *)
Definition no_nan (t : ctable) : Prop := Forall (fun pr => pr <> None) (c_prob t).
