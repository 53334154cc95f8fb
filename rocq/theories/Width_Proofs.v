From Verif Require Import Analysis_Proofs Base_Proofs Osip_Proofs.
From Verif Require Ccd_Model.
From Coq Require Import Qreals.
From Verif Require Export Width_Model.
Open Scope R_scope.

Lemma ln2_pos : 0 < ln 2.
Proof. rewrite <- ln_1. apply ln_increasing; lra. Qed.
Lemma fwhm2sig_pos : 0 < fwhm2sig.
Proof. unfold fwhm2sig. apply Rmult_lt_0_compat; [lra|]. apply sqrt_lt_R0. pose proof ln2_pos. lra. Qed.
Lemma fwhm2sig_sq : fwhm2sig * fwhm2sig = 8 * ln 2.
Proof. unfold fwhm2sig. replace (2 * sqrt (2 * ln 2) * (2 * sqrt (2 * ln 2))) with (4 * (sqrt (2 * ln 2) * sqrt (2 * ln 2))) by ring. rewrite sqrt_sqrt by (pose proof ln2_pos; lra). ring. Qed.
Lemma bell_max : forall s, bell s 0 = 1.
Proof. intro s. unfold bell. replace (- (0 * 0) / (2 * (s * s))) with 0 by (unfold Rdiv; ring). apply exp_0. Qed.
Lemma bell_half : forall w, w <> 0 -> bell (w / fwhm2sig) (w / 2) = 1 / 2 /\ bell (w / fwhm2sig) (- (w / 2)) = 1 / 2.
Proof.
  intros w W. assert (F := fwhm2sig_pos). assert (F2 := fwhm2sig_sq). assert (B : bell (w / fwhm2sig) (w / 2) = 1 / 2).
  { unfold bell. replace (- (w / 2 * (w / 2)) / (2 * (w / fwhm2sig * (w / fwhm2sig)))) with (- (fwhm2sig * fwhm2sig / 8)) by (field; split; [lra|exact W]).
    rewrite F2. replace (- (8 * ln 2 / 8)) with (- ln 2) by lra. rewrite exp_Ropp, exp_ln by lra. lra. }
  split; [exact B|]. rewrite <- B. unfold bell. f_equal. f_equal. ring.
Qed.
Lemma bell_above : forall w x, 0 < w -> 1 / 2 < bell (w / fwhm2sig) x <-> Rabs x < w / 2.
Proof.
  intros w x W. assert (F := fwhm2sig_pos). rewrite <- (proj1 (bell_half w ltac:(lra))). unfold bell.
  assert (S : 0 < / (2 * (w / fwhm2sig * (w / fwhm2sig)))). { apply Rinv_0_lt_compat. assert (0 < w / fwhm2sig) by (apply Rdiv_lt_0_compat; lra). nra. }
  assert (E : forall a, - (a * a) / (2 * (w / fwhm2sig * (w / fwhm2sig))) = - ((a * a) * / (2 * (w / fwhm2sig * (w / fwhm2sig))))) by (intro a; unfold Rdiv; ring).
  rewrite !E. split; intro H.
  - apply exp_lt_inv in H. assert (x * x < w / 2 * (w / 2)) by nra. apply Rnot_le_lt. intro L. assert (Rabs x * Rabs x = x * x) by (unfold Rabs; destruct (Rcase_abs x); ring). nra.
  - apply exp_increasing. assert (Rabs x * Rabs x = x * x) by (unfold Rabs; destruct (Rcase_abs x); ring). assert (0 <= Rabs x) by apply Rabs_pos. assert (x * x < w / 2 * (w / 2)) by nra. nra.
Qed.

(** ** the table *)
Lemma ccd_init_spec : forall tab,
  ccd_init None = Err KeyError /\
  (forall s, dget "sigma"%string tab = Some s -> ccd_init (Some tab) = Ok tab) /\
  (dget "sigma"%string tab = None -> dget "FWHM"%string tab = None -> ccd_init (Some tab) = Err KeyError) /\
  (forall w, dget "sigma"%string tab = None -> dget "FWHM"%string tab = Some w -> exists tab', ccd_init (Some tab) = Ok tab' /\
     dget "sigma"%string tab' = Some (map (fun x => x / fwhm2sig) w) /\ forall c, c <> "sigma"%string -> dget c tab' = dget c tab).
Proof.
  intro tab. split; [reflexivity|]. unfold ccd_init, with_sigma. repeat split.
  - intros s S. now rewrite (proj2 (din_dget _ _) (ex_intro _ s S)).
  - intros S W. rewrite (proj2 (din_false _ _) S), W. reflexivity.
  - intros w S W. rewrite (proj2 (din_false _ _) S), W. eexists. split; [reflexivity|]. split; [apply dget_dset_eq|]. intros c C. now apply dget_dset_neq.
Qed.
Lemma interp_seg_scale : forall r k x x0 y0, interp_seg x x0 (y0 / k) (map (fun p => (fst p, snd p / k)) r) = interp_seg x x0 y0 r / k.
Proof.
  induction r as [|[x1 y1] r IH]; intros k x x0 y0; [reflexivity|]. cbn [map interp_seg fst snd]. destruct (Rltb x x1); [unfold Rdiv; ring|apply IH].
Qed.
Lemma interp_scale : forall pts k x y, interp pts x = Ok y -> interp (map (fun p => (fst p, snd p / k)) pts) x = Ok (y / k).
Proof.
  intros [|[x0 y0] r] k x y E; [discriminate|]. cbn in E |- *. injection E as <-. f_equal. destruct (Rltb x x0); [reflexivity|]. apply interp_seg_scale.
Qed.
Lemma combine_fst_snd : forall {A B} (l : list (A * B)), combine (map fst l) (map snd l) = l.
Proof. induction l as [|[a b] l IH]; [reflexivity|]. cbn. now rewrite IH. Qed.
Lemma sig_sigma_table : forall pts e, sig_ccd (sigma_table pts) e = interp pts e.
Proof. intros. unfold sig_ccd, sigma_table. cbn -[Analysis_Model.interp combine map Nat.eqb List.length]. rewrite !map_length, Nat.eqb_refl, combine_fst_snd. reflexivity. Qed.
Lemma sig_fwhm_table : forall pts e, exists tab, ccd_init (Some (fwhm_table pts)) = Ok tab /\ sig_ccd tab e = interp (map (fun p => (fst p, snd p / fwhm2sig)) pts) e.
Proof.
  intros. eexists. split; [reflexivity|]. unfold sig_ccd. cbn -[Analysis_Model.interp combine map Nat.eqb List.length fwhm2sig]. rewrite !map_length, Nat.eqb_refl. f_equal. rewrite map_map.
  induction pts as [|[a b] l IH]; [reflexivity|]. cbn. f_equal. exact IH.
Qed.
Lemma sig_fwhm : forall pts e w, interp pts e = Ok w -> exists tab, ccd_init (Some (fwhm_table pts)) = Ok tab /\ sig_ccd tab e = Ok (w / fwhm2sig).
Proof. intros pts e w E. destruct (sig_fwhm_table pts e) as (tab & T & S). exists tab. split; [exact T|]. rewrite S. now apply interp_scale. Qed.
Lemma interp_below : forall x0 y0 r x, x < x0 -> interp ((x0, y0) :: r) x = Ok y0.
Proof. intros. cbn. now rewrite (proj2 (Rltb_true x x0)). Qed.
Lemma interp_seg_above : forall r x0 y0 x, Forall (fun p => fst p <= x) r -> interp_seg x x0 y0 r = snd (last r (x0, y0)).
Proof.
  induction r as [|[x1 y1] r IH]; intros x0 y0 x F; [reflexivity|]. inversion F as [|p q F1 F2]; subst. cbn [fst] in F1. cbn [interp_seg]. rewrite (proj2 (Rltb_false x x1)) by lra. rewrite IH by exact F2.
  destruct r; [reflexivity|]. cbn [last]. f_equal. clear. revert p. induction r as [|q r IH]; intro p; [reflexivity|]. cbn [last] in *. destruct r; [reflexivity|apply (IH p)].
Qed.
Lemma interp_above : forall p r x, Forall (fun p => fst p <= x) (p :: r) -> interp (p :: r) x = Ok (snd (last r p)).
Proof. intros [x0 y0] r x F. inversion F as [|p q F1 F2]; subst. cbn [fst] in F1. cbn. rewrite (proj2 (Rltb_false x x0)) by lra. f_equal. now apply interp_seg_above. Qed.
Lemma interp_seg_skip : forall a r x0 y0 x, Forall (fun p => fst p <= x) a -> interp_seg x x0 y0 (a ++ r) = interp_seg x (fst (last a (x0, y0))) (snd (last a (x0, y0))) r.
Proof.
  induction a as [|[x1 y1] a IH]; intros r x0 y0 x F; [reflexivity|]. inversion F as [|p q F1 F2]; subst. cbn [fst] in F1. cbn [app interp_seg]. rewrite (proj2 (Rltb_false x x1)) by lra. rewrite IH by exact F2.
  destruct a; [reflexivity|]. assert (L : last (p :: a) (x1, y1) = last ((x1, y1) :: p :: a) (x0, y0)).
  { clear. cbn [last]. revert p. induction a as [|q a IH]; intro p; [reflexivity|]. cbn [last] in *. destruct a; [reflexivity|apply (IH p)]. } now rewrite L.
Qed.
(** between two neighbours *)
Lemma asc_before : forall a x0 y0 b, ascP (a ++ (x0, y0) :: b) -> Forall (fun p => fst p <= x0) a.
Proof.
  induction a as [|[x1 y1] a IH]; intros x0 y0 b A; [constructor|]. constructor.
  - assert (I : In (x0, y0) (((x1, y1) :: a) ++ (x0, y0) :: b)) by (apply in_or_app; right; now left). exact (asc_le_head _ _ _ _ A I).
  - apply (IH x0 y0 b). cbn [app] in A. destruct (a ++ (x0, y0) :: b); [destruct a; exact Logic.I || (cbn; trivial)|]. exact (proj2 A).
Qed.
Lemma last_snoc : forall {A} (l : list A) x d, last (l ++ [x]) d = x.
Proof. intros. apply last_last. Qed.
Lemma interp_between : forall a x0 y0 x1 y1 b x, ascP (a ++ (x0, y0) :: (x1, y1) :: b) -> x0 <= x < x1 ->
  interp (a ++ (x0, y0) :: (x1, y1) :: b) x = Ok (y0 + (y1 - y0) * ((x - x0) / (x1 - x0))).
Proof.
  intros a x0 y0 x1 y1 b x A X. assert (F := asc_before _ _ _ _ A). destruct a as [|[x2 y2] a].
  - cbn. rewrite (proj2 (Rltb_false x x0)), (proj2 (Rltb_true x x1)) by lra. f_equal. field. lra.
  - inversion F as [|p q F1 F2]; subst. cbn [fst] in F1. cbn [app interp]. rewrite (proj2 (Rltb_false x x2)) by lra.
    replace (a ++ (x0, y0) :: (x1, y1) :: b) with ((a ++ [(x0, y0)]) ++ (x1, y1) :: b) by (rewrite <- app_assoc; reflexivity).
    rewrite interp_seg_skip. 2:{ apply Forall_app. split; [|constructor; [cbn; lra|constructor]]. eapply Forall_impl; [|exact F2]. cbn. intros; lra. }
    rewrite last_snoc. cbn [fst snd interp_seg]. rewrite (proj2 (Rltb_true x x1)) by lra. f_equal. field. lra.
Qed.

(** ** distribution *)
Lemma cdf_value : forall Phi tab x e s, sig_ccd tab e = Ok s -> s <> 0 -> cdf Phi tab x e = Ok (Some (Phi ((x - e) / s))).
Proof. intros Phi tab x e s S N. unfold cdf. rewrite S. cbn [bind]. destruct (Reqb s 0) eqn:E; [apply Reqb_true in E; contradiction|reflexivity]. Qed.
Lemma cdf_zero : forall Phi tab x e, sig_ccd tab e = Ok 0 ->
  (e < x -> cdf Phi tab x e = Ok (Some 1)) /\ (x < e -> cdf Phi tab x e = Ok (Some 0)) /\ cdf Phi tab e e = Ok None.
Proof.
  intros Phi tab x e S. unfold cdf. rewrite S. cbn [bind]. rewrite (proj2 (Reqb_true 0 0) eq_refl). repeat split; intros.
  - now rewrite (proj2 (Rltb_true e x)).
  - rewrite (proj2 (Rltb_false e x)), (proj2 (Rltb_true x e)) by lra. reflexivity.
  - rewrite (proj2 (Rltb_false e e)) by lra. reflexivity.
Qed.
Lemma div_lt : forall a b s, 0 < s -> a < b -> a / s < b / s.
Proof. intros. apply Rmult_lt_compat_r; [now apply Rinv_0_lt_compat|assumption]. Qed.
Lemma cdf_increasing : forall Phi tab x y e s p q, (forall u v, u < v -> Phi u < Phi v) -> sig_ccd tab e = Ok s -> 0 < s -> x < y -> cdf Phi tab x e = Ok (Some p) -> cdf Phi tab y e = Ok (Some q) -> p < q.
Proof. intros Phi tab x y e s p q M S P L X Y. rewrite (cdf_value _ _ _ _ _ S) in X by lra. rewrite (cdf_value _ _ _ _ _ S) in Y by lra. injection X as <-. injection Y as <-. apply M, div_lt; lra. Qed.
Lemma cdf_symmetric : forall Phi tab h e s, (forall u, Phi u + Phi (- u) = 1) -> sig_ccd tab e = Ok s -> s <> 0 -> exists p q, cdf Phi tab (e + h) e = Ok (Some p) /\ cdf Phi tab (e - h) e = Ok (Some q) /\ p + q = 1.
Proof.
  intros Phi tab h e s M S P. rewrite !(cdf_value _ _ _ _ _ S) by exact P. do 2 eexists. split; [reflexivity|]. split; [reflexivity|]. rewrite <- (M (h / s)). f_equal; f_equal; field; exact P.
Qed.
Lemma interval_fraction : forall Phi q tab e s, sig_ccd tab e = Ok s -> s <> 0 -> exists lo hi, interval q tab e = Ok (lo, hi) /\
  cdf Phi tab lo e = Ok (Some (Phi (fst q))) /\ cdf Phi tab hi e = Ok (Some (Phi (snd q))).
Proof.
  intros Phi q tab e s S P. unfold interval. rewrite S. cbn [bind]. do 2 eexists. split; [reflexivity|]. rewrite !(cdf_value _ _ _ _ _ S) by exact P. split; do 2 f_equal; f_equal; field; exact P.
Qed.
Lemma interval_order : forall q tab e s lo hi, sig_ccd tab e = Ok s -> 0 < s -> fst q < 0 -> 0 < snd q -> interval q tab e = Ok (lo, hi) -> lo < e < hi.
Proof. intros q tab e s lo hi S P A B E. unfold interval in E. rewrite S in E. cbn [bind] in E. injection E as <- <-. nra. Qed.
Lemma detected_window : forall tab e d s x lo hi, sig_ccd tab e = Ok s -> 0 < s -> detected tab e d = Ok x -> (lo <= x <= hi <-> (lo - e) / s <= d <= (hi - e) / s).
Proof.
  intros tab e d s x lo hi S P D. unfold detected in D. rewrite S in D. cbn [bind] in D. rewrite (proj2 (Rltb_false s 0)) in D by lra. injection D as <-.
  assert (E : forall a, a = (a - e) / s * s + e) by (intro a; field; lra). rewrite (E lo) at 1. rewrite (E hi) at 1. generalize ((lo - e) / s) ((hi - e) / s). intros u v. nra.
Qed.
Lemma detected_interval : forall tab e d s x q lo hi, sig_ccd tab e = Ok s -> 0 < s -> detected tab e d = Ok x -> interval q tab e = Ok (lo, hi) -> (lo <= x <= hi <-> fst q <= d <= snd q).
Proof.
  intros tab e d s x q lo hi S P D I. rewrite (detected_window _ _ _ _ _ _ _ S P D). unfold interval in I. rewrite S in I. cbn [bind] in I. injection I as <- <-.
  replace ((fst q * s + e - e) / s) with (fst q) by (field; lra). replace ((snd q * s + e - e) / s) with (snd q) by (field; lra). reflexivity.
Qed.
Lemma detected_errors : forall tab e d, (forall s, sig_ccd tab e = Ok s -> s < 0 -> detected tab e d = Err ValueError) /\ (sig_ccd tab e = Ok 0 -> detected tab e d = Ok e).
Proof.
  intros. unfold detected. split; intros.
  - rewrite H. cbn [bind]. now rewrite (proj2 (Rltb_true s 0)).
  - rewrite H. cbn [bind]. rewrite (proj2 (Rltb_false 0 0)) by lra. f_equal. ring.
Qed.
(** ** order sorting with it *)
Lemma osip_event : forall Phi tab sig range e_nom o m d x f, (forall e, sig_ccd tab e = Ok (sig e)) -> (forall e, 0 < sig e) -> o <> 0%Z -> Z.sgn o = Z.sgn m ->
  let e := e_nom * (IZR m / IZR o) in
  osip_factor range (fun x loc => Phi ((x - loc) / sig loc)) e_nom o m = Ok f -> detected tab e d = Ok x ->
  exists a b, f = Phi b - Phi a /\ (fst (range e_nom o) <= x <= snd (range e_nom o) <-> a <= d <= b).
Proof.
  intros Phi tab sig range e_nom o m d x f S P O G e F D. unfold osip_factor in F. rewrite (proj2 (Z.eqb_eq _ _) G) in F. cbn [negb] in F. rewrite (proj2 (Z.eqb_neq _ _) O) in F. cbv zeta in F. fold e in F. injection F as <-.
  exists ((fst (range e_nom o) - e) / sig e), ((snd (range e_nom o) - e) / sig e). split; [reflexivity|]. exact (detected_window _ _ _ _ _ _ _ (S e) (P e) D).
Qed.
Lemma shared_table : exists tab tab1 tab2 w, ccd_init (Some tab) = Ok tab1 /\ dget "sigma"%string tab1 <> dget "sigma"%string tab /\
  (* the user then sets the FWHM of the same table to [w] and makes another detector *)
  ccd_init (Some (dset "FWHM"%string w tab1)) = Ok tab2 /\ (exists s, sig_ccd tab2 1 = Ok s /\ interp [(1, 2)] 1 = Ok (fwhm2sig * s) /\ w = [4]).
Proof.
  exists (fwhm_table [(1, 2)]). do 2 eexists. exists [4]. split; [reflexivity|]. split; [cbn; discriminate|]. split; [reflexivity|]. exists (2 / fwhm2sig).
  assert (F := fwhm2sig_pos). split; [|split; [|reflexivity]].
  - unfold sig_ccd. cbn. rewrite (proj2 (Rltb_false 1 1)) by lra. reflexivity.
  - cbn. rewrite (proj2 (Rltb_false 1 1)) by lra. f_equal. field. lra.
Qed.
(** ** the column of the photon list *)
Lemma redist_detected : forall tab sigma e d, sig_ccd tab (Q2R e) = Ok (Q2R (sigma e)) -> 0 <= Q2R (sigma e) ->
  exists x, Ccd_Model.redist sigma (Photons_Model.CNum (Some e)) d = Photons_Model.CNum (Some x) /\ detected tab (Q2R e) (Q2R d) = Ok (Q2R x).
Proof.
  intros tab sigma e d S P. eexists. split; [reflexivity|]. unfold detected. rewrite S. cbn [bind]. rewrite (proj2 (Rltb_false _ 0)) by lra. f_equal. now rewrite Q2R_plus, Q2R_mult.
Qed.
