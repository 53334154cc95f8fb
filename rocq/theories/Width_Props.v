From Verif Require Import Width_Proofs Analysis_Proofs.
From Verif Require Ccd_Model.
From Coq Require Import Qreals.
From Verif Require Export Width_Model.
Open Scope R_scope.

(** C242: the full width at half maximum of a table and the sigma used for it belong to the same normal distribution. *)
Theorem C242_half_maximum : forall w, w <> 0 -> bell (w / fwhm2sig) 0 = 1 /\ bell (w / fwhm2sig) (w / 2) = 1 / 2 /\ bell (w / fwhm2sig) (- (w / 2)) = 1 / 2.
Proof. intros w W. split; [apply bell_max|]. now apply bell_half. Qed.
Print Assumptions C242_half_maximum.
(** exactly the energies closer than half of the width are above half of the maximum *)
Theorem C242_full_width : forall w x, 0 < w -> (1 / 2 < bell (w / fwhm2sig) x <-> Rabs x < w / 2).
Proof. exact bell_above. Qed.
Print Assumptions C242_full_width.
(** A column sigma is used as it is, otherwise it is made from the FWHM; other columns stay. *)
Theorem C242_table : forall tab,
  ccd_init None = Err KeyError /\
  (forall s, dget "sigma"%string tab = Some s -> ccd_init (Some tab) = Ok tab) /\
  (dget "sigma"%string tab = None -> dget "FWHM"%string tab = None -> ccd_init (Some tab) = Err KeyError) /\
  (forall w, dget "sigma"%string tab = None -> dget "FWHM"%string tab = Some w -> exists tab', ccd_init (Some tab) = Ok tab' /\
     dget "sigma"%string tab' = Some (map (fun x => x / fwhm2sig) w) /\ forall c, c <> "sigma"%string -> dget c tab' = dget c tab).
Proof. exact ccd_init_spec. Qed.
Print Assumptions C242_table.
(** At an energy of the table the width is the one of the table. *)
Theorem C242_at_table : forall pts e s, ascP pts -> In (e, s) pts -> sig_ccd (sigma_table pts) e = Ok s.
Proof. intros pts e s A I. rewrite sig_sigma_table. now apply interp_node. Qed.
Print Assumptions C242_at_table.
(** Between two neighbours of the table it is on the straight line. *)
Theorem C242_between : forall a x0 y0 x1 y1 b x, ascP (a ++ (x0, y0) :: (x1, y1) :: b) -> x0 <= x < x1 ->
  sig_ccd (sigma_table (a ++ (x0, y0) :: (x1, y1) :: b)) x = Ok (y0 + (y1 - y0) * ((x - x0) / (x1 - x0))).
Proof. intros. rewrite sig_sigma_table. now apply interp_between. Qed.
Print Assumptions C242_between.
(** Outside of the table it is the first or the last one. *)
Theorem C242_outside : forall p r x,
  (x < fst p -> sig_ccd (sigma_table (p :: r)) x = Ok (snd p)) /\ (Forall (fun q => fst q <= x) (p :: r) -> sig_ccd (sigma_table (p :: r)) x = Ok (snd (last r p))).
Proof. intros [x0 y0] r x. rewrite sig_sigma_table. split; intro H; [now apply interp_below|now apply interp_above]. Qed.
Print Assumptions C242_outside.
(** It is never narrower or wider than the table; it only fails for an empty table. *)
Theorem C242_range : forall pts e lo hi, pts <> [] -> Forall (fun p => lo <= snd p <= hi) pts -> exists s, sig_ccd (sigma_table pts) e = Ok s /\ lo <= s <= hi.
Proof. intros. rewrite sig_sigma_table. now apply interp_bounds. Qed.
Print Assumptions C242_range.
(** A table of FWHM gives the FWHM found in it by interpolation. *)
Theorem C242_fwhm : forall pts e w, Analysis_Model.interp pts e = Ok w -> exists tab, ccd_init (Some (fwhm_table pts)) = Ok tab /\ sig_ccd tab e = Ok (w / fwhm2sig).
Proof. exact sig_fwhm. Qed.
Print Assumptions C242_fwhm.
(** The table of the user is changed: a second detector made from it after its FWHM was changed still has the old width. *)
Theorem C242_shared_refuted : exists tab tab1 tab2 w, ccd_init (Some tab) = Ok tab1 /\ dget "sigma"%string tab1 <> dget "sigma"%string tab /\
  ccd_init (Some (dset "FWHM"%string w tab1)) = Ok tab2 /\ (exists s, sig_ccd tab2 1 = Ok s /\ Analysis_Model.interp [(1, 2)] 1 = Ok (fwhm2sig * s) /\ w = [4]).
Proof. exact shared_table. Qed.
Print Assumptions C242_shared_refuted.

(** The distribution of detected energies: increasing, and symmetric around the energy of the photon, if [Phi] is. *)
Theorem C242_increasing : forall Phi tab x y e s p q, (forall u v, u < v -> Phi u < Phi v) -> sig_ccd tab e = Ok s -> 0 < s -> x < y ->
  cdf Phi tab x e = Ok (Some p) -> cdf Phi tab y e = Ok (Some q) -> p < q.
Proof. exact cdf_increasing. Qed.
Print Assumptions C242_increasing.
Theorem C242_symmetric : forall Phi tab h e s, (forall u, Phi u + Phi (- u) = 1) -> sig_ccd tab e = Ok s -> s <> 0 ->
  exists p q, cdf Phi tab (e + h) e = Ok (Some p) /\ cdf Phi tab (e - h) e = Ok (Some q) /\ p + q = 1.
Proof. exact cdf_symmetric. Qed.
Print Assumptions C242_symmetric.
(** Without any width it is a step, which is not a number at the energy itself. *)
Theorem C242_no_width : forall Phi tab x e, sig_ccd tab e = Ok 0 ->
  (e < x -> cdf Phi tab x e = Ok (Some 1)) /\ (x < e -> cdf Phi tab x e = Ok (Some 0)) /\ cdf Phi tab e e = Ok None.
Proof. exact cdf_zero. Qed.
Print Assumptions C242_no_width.
(** [interval]: the fraction asked for is inside, for every energy and table; it surrounds the energy. *)
Theorem C242_interval : forall Phi q tab e s, sig_ccd tab e = Ok s -> s <> 0 -> exists lo hi, interval q tab e = Ok (lo, hi) /\
  cdf Phi tab lo e = Ok (Some (Phi (fst q))) /\ cdf Phi tab hi e = Ok (Some (Phi (snd q))).
Proof. exact interval_fraction. Qed.
Print Assumptions C242_interval.
Theorem C242_interval_around : forall q tab e s lo hi, sig_ccd tab e = Ok s -> 0 < s -> fst q < 0 -> 0 < snd q -> interval q tab e = Ok (lo, hi) -> lo < e < hi.
Proof. exact interval_order. Qed.
Print Assumptions C242_interval_around.
(** The energies written to the photon list follow that distribution: an event is in the interval exactly if its normal number is in the interval of the normal law. *)
Theorem C242_events : forall tab e d s x q lo hi, sig_ccd tab e = Ok s -> 0 < s -> detected tab e d = Ok x -> interval q tab e = Ok (lo, hi) -> (lo <= x <= hi <-> fst q <= d <= snd q).
Proof. exact detected_interval. Qed.
Print Assumptions C242_events.
(** the same for the column energy_detected of a photon list, whose numbers are rational *)
Theorem C242_column : forall tab sigma e d, sig_ccd tab (Q2R e) = Ok (Q2R (sigma e)) -> 0 <= Q2R (sigma e) ->
  exists x, Ccd_Model.redist sigma (Photons_Model.CNum (Some e)) d = Photons_Model.CNum (Some x) /\ detected tab (Q2R e) (Q2R d) = Ok (Q2R x).
Proof. exact redist_detected. Qed.
Print Assumptions C242_column.
Theorem C242_events_errors : forall tab e d, (forall s, sig_ccd tab e = Ok s -> s < 0 -> detected tab e d = Err ValueError) /\ (sig_ccd tab e = Ok 0 -> detected tab e d = Ok e).
Proof. exact detected_errors. Qed.
Print Assumptions C242_events_errors.
(** Order sorting: the factor for the ARF is the probability that a simulated photon is found in the window, for each kind of window and each true order. *)
Theorem C242_order_sorting : forall Phi tab sig range e_nom o m d x f, (forall e, sig_ccd tab e = Ok (sig e)) -> (forall e, 0 < sig e) -> o <> 0%Z -> Z.sgn o = Z.sgn m ->
  let e := e_nom * (IZR m / IZR o) in
  osip_factor range (fun x loc => Phi ((x - loc) / sig loc)) e_nom o m = Ok f -> detected tab e d = Ok x ->
  exists a b, f = Phi b - Phi a /\ (fst (range e_nom o) <= x <= snd (range e_nom o) <-> a <= d <= b).
Proof. exact osip_event. Qed.
Print Assumptions C242_order_sorting.

(** a table with two energies: in the middle the width is 0.05 keV, the interval of 2 sigma is 0.1 keV to each side *)
Example ex_C242 : let tab := sigma_table [(1, 4 / 100); (3, 6 / 100)] in
  sig_ccd tab 2 = Ok (5 / 100) /\ interval (-2, 2) tab 2 = Ok (19 / 10, 21 / 10) /\ detected tab 2 1 = Ok (205 / 100) /\ detected tab 5 (-1) = Ok (494 / 100).
Proof.
  cbv zeta. assert (A : ascP [(1, 4 / 100); (3, 6 / 100)]) by (cbn; lra).
  assert (S : sig_ccd (sigma_table [(1, 4 / 100); (3, 6 / 100)]) 2 = Ok (5 / 100)).
  { etransitivity; [apply (C242_between [] 1 (4 / 100) 3 (6 / 100) [] 2 A); lra|]. f_equal. lra. }
  assert (T : sig_ccd (sigma_table [(1, 4 / 100); (3, 6 / 100)]) 5 = Ok (6 / 100)).
  { etransitivity; [apply (C242_outside (1, 4 / 100) [(3, 6 / 100)] 5); repeat constructor; cbn; lra|]. reflexivity. }
  split; [exact S|]. unfold interval, detected. rewrite S, T. cbn [bind fst snd]. rewrite !(proj2 (Rltb_false _ _)) by lra. split; [apply (f_equal Ok), f_equal2; lra|]. split; apply (f_equal Ok); lra.
Qed.
