(** Properties C239 (keywords of sources and pointings) and C240 (header and columns of a simulated photon list). *)
From Verif Require Import Base_Proofs Origin_Model Origin_Proofs.
From Coq Require Import Reals Lra.
Open Scope string_scope.
Open Scope list_scope.

(** ** C239 *)
(** A point source is made if and only if there are coordinates which are scalar and no unknown keywords; it then has the values given, or the defaults. *)
Theorem C239_point {V} (D : defaults V) sky scalar kw c s :
  astro_init D sky scalar kw = Ok (c, s) <->
  (exists v, dget "coords" kw = Some v /\ sky v = Ok c) /\ scalar c = true /\
  (forall k v, dget k kw = Some v -> In k ["coords"; "energy"; "flux"; "polarization"; "geomarea"; "id_num"; "id_col"; "name"]) /\
  s_energy s = match dget "energy" kw with Some v => v | None => Some (d_energy D) end /\
  s_flux s = match dget "flux" kw with Some v => v | None => Some (d_flux D) end /\
  s_polarization s = match dget "polarization" kw with Some v => v | None => None end /\
  s_area s = match dget "geomarea" kw with Some (Some v) => Some v | Some None => Some (d_one D) | None => Some (d_area D) end.
Proof.
  rewrite astro_iff. unfold as_given, given. destruct s as [e f p g]. cbn [s_energy s_flux s_polarization s_area]. fold (only ("coords" :: of_source) kw). unfold of_source.
  split; intros (A & B & C & E); (split; [exact A|]; split; [exact B|]; split; [exact C|]).
  - inversion E. repeat split.
  - destruct E as (-> & -> & -> & ->). destruct (dget "geomarea" kw) as [[w|]|]; reflexivity.
Qed.
Print Assumptions C239_point.
(** What is raised otherwise. *)
Theorem C239_point_errors {V} (D : defaults V) sky scalar kw :
  (dget "coords" kw = None -> astro_init D sky scalar kw = Err KeyError) /\
  (forall v e, dget "coords" kw = Some v -> sky v = Err e -> astro_init D sky scalar kw = Err e) /\
  (forall v c, dget "coords" kw = Some v -> sky v = Ok c ->
     scalar c = false \/ ~ only ["coords"; "energy"; "flux"; "polarization"; "geomarea"; "id_num"; "id_col"; "name"] kw -> astro_init D sky scalar kw = Err ValueError).
Proof. exact (astro_errors D sky scalar kw). Qed.
Print Assumptions C239_point_errors.
(** Sources with a shape: one keyword more each, needed for the radial distribution and the width of a Gaussian, with a default for the size of the letter F. *)
Theorem C239_shapes {V} (D : defaults V) sky scalar kw :
  (forall fn par c s, radial_source D sky scalar kw = Ok (fn, par, (c, s)) <->
     dget "radial_distribution" kw = Some fn /\ par = match dget "func_par" kw with Some v => v | None => None end /\
     (exists v, dget "coords" kw = Some v /\ sky v = Ok c) /\ scalar c = true /\
     only ("radial_distribution" :: "func_par" :: "coords" :: of_source) kw /\ s = as_given D kw) /\
  (forall w c s, gauss_source D sky scalar kw = Ok (w, (c, s)) <->
     dget "sigma" kw = Some w /\ (exists v, dget "coords" kw = Some v /\ sky v = Ok c) /\ scalar c = true /\ only ("sigma" :: "coords" :: of_source) kw /\ s = as_given D kw) /\
  (forall w c s, symbol_source D sky scalar kw = Ok (w, (c, s)) <->
     w = match dget "size" kw with Some v => v | None => Some (d_size D) end /\
     (exists v, dget "coords" kw = Some v /\ sky v = Ok c) /\ scalar c = true /\ only ("size" :: "coords" :: of_source) kw /\ s = as_given D kw).
Proof. exact (conj (fun fn par c s => radial_iff D sky scalar kw fn par c s) (conj (fun w c s => gauss_iff D sky scalar kw w c s) (fun w c s => symbol_iff D sky scalar kw w c s))). Qed.
Print Assumptions C239_shapes.
(** Disks and rings: the outer angle is needed, the inner one is zero if it is not given; the two are the parameters of the function of the class. *)
Theorem C239_disk {V} (D : defaults V) pair own sky scalar kw fn par c s :
  disk_source D pair own sky scalar kw = Ok (fn, par, (c, s)) <->
  (exists v, dget "a_outer" kw = Some v /\ par = Some (pair v (match dget "a_inner" kw with Some w => w | None => Some (d_angle D) end))) /\ fn = Some own /\
  (exists v, dget "coords" kw = Some v /\ sky v = Ok c) /\ scalar c = true /\
  only ("a_outer" :: "a_inner" :: "radial_distribution" :: "func_par" :: "coords" :: of_source) kw /\ s = as_given D kw.
Proof. exact (disk_iff D sky scalar pair own kw fn par c s). Qed.
Print Assumptions C239_disk.
(** Keywords are not refused although they have no effect: a radial distribution and its parameters given to a disk are lost without a message. *)
Theorem C239_lost_refuted {V} (D : defaults V) pair own sky scalar kw f p r :
  disk_source D pair own sky scalar kw = Ok r ->
  disk_source D pair own sky scalar (dset "radial_distribution" f (dset "func_par" p kw)) = Ok r.
Proof. exact (disk_ignores D pair own sky scalar kw f p r). Qed.
Print Assumptions C239_lost_refuted.
(** Sources in the laboratory: position and direction of a cone have three elements, the area is 1 without unit and the default of the flux has no area. *)
Theorem C239_cone {V} (D : defaults V) (len : option V -> result nat) kw p o d s :
  cone_init D len kw = Ok (p, o, d, s) <->
  p = match dget "position" kw with Some v => v | None => Some (d_origin D) end /\ o = match dget "half_opening" kw with Some v => v | None => Some (d_opening D) end /\
  d = match dget "direction" kw with Some v => v | None => Some (d_axis D) end /\
  len p = Ok 3%nat /\ len d = Ok 3%nat /\ only ["position"; "half_opening"; "direction"; "energy"; "flux"; "polarization"; "id_num"; "id_col"; "name"] kw /\
  s = Source (match dget "energy" kw with Some v => v | None => Some (d_energy D) end) (match dget "flux" kw with Some v => v | None => Some (d_labflux D) end)
             (match dget "polarization" kw with Some v => v | None => None end) (Some (d_one D)).
Proof. exact (cone_iff D len kw p o d s). Qed.
Print Assumptions C239_cone.
Theorem C239_far {V G} (D : defaults V) (geometry : keywords V -> result (G * keywords V)) kw p s g :
  far_init D geometry kw = Ok (p, (s, g)) <->
  dget "sourcePos" kw = Some p /\ dget "geomarea" kw = None /\
  s = Source (match dget "energy" kw with Some v => v | None => Some (d_energy D) end) (match dget "flux" kw with Some v => v | None => Some (d_labflux D) end)
             (match dget "polarization" kw with Some v => v | None => None end) (Some (d_one D)) /\
  exists rest, geometry (ddel "polarization" (ddel "flux" (ddel "energy" (ddel "sourcePos" kw)))) = Ok (g, rest) /\ only ["id_num"; "id_col"; "name"] rest.
Proof. exact (far_iff D geometry kw p s g). Qed.
Print Assumptions C239_far.
(** They do not take all keywords of a source: with an area there is a TypeError from python, whatever else is given. *)
Theorem C239_lab_area_refuted {V A} (D : defaults V) (next : keywords V -> result A) kw v :
  dget "geomarea" kw = Some v -> lab_init D next kw = Err TypeError.
Proof. exact (lab_area D next kw v). Qed.
Print Assumptions C239_lab_area_refuted.
(** Pointings. The coordinates are used as they are given. *)
Theorem C239_pointing {V} (D : defaults V) isscalar kw p :
  fixed_init D isscalar kw = Ok p <->
  dget "coords" kw = Some (p_coords p) /\ isscalar (p_coords p) = Ok true /\
  p_roll p = match dget "roll" kw with Some v => v | None => Some (d_roll D) end /\
  p_reference p = match dget "reference_transform" kw with Some v => v | None => Some (d_eye D) end /\
  only ["coords"; "roll"; "reference_transform"; "id_num"; "id_col"; "name"] kw.
Proof. exact (fixed_iff D isscalar kw p). Qed.
Print Assumptions C239_pointing.
Theorem C239_pointing_errors {V} (D : defaults V) isscalar kw :
  (dget "coords" kw = None -> fixed_init D isscalar kw = Err KeyError) /\
  (forall v e, dget "coords" kw = Some v -> isscalar v = Err e -> fixed_init D isscalar kw = Err e) /\
  (forall v b, dget "coords" kw = Some v -> isscalar v = Ok b -> b = false \/ ~ only ["coords"; "roll"; "reference_transform"; "id_num"; "id_col"; "name"] kw ->
     fixed_init D isscalar kw = Err ValueError).
Proof. exact (fixed_errors D isscalar kw). Qed.
Print Assumptions C239_pointing_errors.
Theorem C239_moving_pointings {V} (D : defaults V) abs isscalar kw :
  (forall j p, jitter_init D abs isscalar kw = Ok (j, p) <->
     (exists v, dget "jitter" kw = Some v /\ abs v = Ok j) /\
     dget "coords" kw = Some (p_coords p) /\ isscalar (p_coords p) = Ok true /\
     p_roll p = given "roll" (d_roll D) kw /\ p_reference p = given "reference_transform" (d_eye D) kw /\
     only ["jitter"; "coords"; "roll"; "reference_transform"; "id_num"; "id_col"; "name"] kw) /\
  (forall a t h p, dither_init D isscalar kw = Ok (a, t, h, p) <->
     a = given "DitherAmp" (d_amp D) kw /\ t = given "DitherPeriod" (d_period D) kw /\ h = given "DitherPhase" (d_phase D) kw /\
     dget "coords" kw = Some (p_coords p) /\ isscalar (p_coords p) = Ok true /\
     p_roll p = given "roll" (d_roll D) kw /\ p_reference p = given "reference_transform" (d_eye D) kw /\
     only ["DitherAmp"; "DitherPeriod"; "DitherPhase"; "coords"; "roll"; "reference_transform"; "id_num"; "id_col"; "name"] kw).
Proof. exact (conj (fun j p => jitter_iff D isscalar abs kw j p) (fun a t h p => dither_iff D isscalar kw a t h p)). Qed.
Print Assumptions C239_moving_pointings.

Definition ex_defaults : defaults nat := Defaults 1 2 3 1 4 0 5 6 7 8 0 9 10 11 12.
Definition ex_sky (v : option nat) : result nat := match v with Some n => Ok n | None => Err ValueError end.
Example ex_C239_point : astro_init ex_defaults ex_sky (fun _ => true) [("flux", Some 50); ("coords", Some 20); ("geomarea", None); ("name", None)] = Ok (20, Source (Some 1) (Some 50) None (Some 1)).
Proof. reflexivity. Qed.
Example ex_C239_unknown : astro_init ex_defaults ex_sky (fun _ => true) [("coords", Some 20); ("polarisation", Some 3)] = Err ValueError.
Proof. reflexivity. Qed.
Example ex_C239_gauss : gauss_source ex_defaults ex_sky (fun _ => true) [("sigma", Some 4); ("coords", Some 20)] = Ok (Some 4, (20, Source (Some 1) (Some 2) None (Some 3)))
  /\ gauss_source ex_defaults ex_sky (fun _ => true) [("coords", Some 20)] = Err KeyError.
Proof. split; reflexivity. Qed.
Example ex_C239_disk : exists r, disk_source ex_defaults (fun a b => match a, b with Some a, Some b => 100 * a + b | _, _ => 0 end) 77 ex_sky (fun _ => true) [("coords", Some 20); ("a_outer", Some 3)] = Ok r.
Proof. eexists. reflexivity. Qed.
Example ex_C239_cone : cone_init ex_defaults (fun _ => Ok 3) [("energy", Some 30)] = Ok (Some 6, Some 7, Some 8, Source (Some 30) (Some 4) None (Some 1))
  /\ cone_init ex_defaults (fun _ => Ok 4) [("energy", Some 30)] = Err ValueError
  /\ cone_init ex_defaults (fun _ => Ok 3) [("geomarea", Some 30)] = Err TypeError.
Proof. repeat split; reflexivity. Qed.
Example ex_C239_far : far_init ex_defaults (fun kw => Ok (dget "position" kw, ddel "position" kw)) [("position", Some 30); ("sourcePos", Some 31)]
  = Ok (Some 31, (Source (Some 1) (Some 4) None (Some 1), Some (Some 30))).
Proof. reflexivity. Qed.
Example ex_C239_pointing : fixed_init ex_defaults (fun _ => Ok true) [("roll", Some 30); ("coords", Some 31)] = Ok (Pointing (Some 31) (Some 30) (Some 9))
  /\ jitter_init ex_defaults ex_sky (fun _ => Ok true) [("roll", Some 30); ("coords", Some 31)] = Err KeyError
  /\ dither_init ex_defaults (fun _ => Ok true) [("DitherAmp", Some 30); ("coords", Some 31)] = Ok (Some 30, Some 11, Some 12, Pointing (Some 31) (Some 0) (Some 9)).
Proof. repeat split; reflexivity. Qed.

(** ** C240 *)
(** The list of a source: header and columns, in order. *)
Theorem C240_new version date clock user host exposure :
  let l := new_list version date clock user host exposure in
  header l =
    [("EXTNAME", Alone (Words "EVENTS")); ("EXPOSURE", Commented (Number exposure) "total exposure time [s]");
     ("CREATOR", Alone (Words ("MARXS - Version " ++ version)%string)); ("LONGSTRN", Commented (Words "OGIP 1.0") "The OGIP long string convention may be used.");
     ("MARXSVER", Commented (Words version) "MARXS version"); ("SIMDATE", Commented (Words date) "Date simulation was run");
     ("SIMTIME", Commented (Words (substring 0 10 clock)) "Time simulation was started");
     ("SIMUSER", Commented (Words (match user with Some n => n | None => "unknown user" end)) "User running simulation");
     ("SIMHOST", Commented (Words (match host with Some n => n | None => "unknown host" end)) "Host system running simulation")] /\
  columns l = [("time", Some "s"); ("energy", Some "keV"); ("polangle", Some "rad"); ("probability", None)].
Proof. split; reflexivity. Qed.
Print Assumptions C240_new.
(** A source on the sky followed by a pointing: nothing that the source wrote is lost, seven entries and four columns are added; all angles are in degrees. *)
Theorem C240_pointed version date clock user host exposure ra dec roll :
  let l := new_list version date clock user host exposure in
  let '(l', e) := pointed ra dec roll (set_sky l) in
  e = None /\
  header l' = header l ++
    [("COORDSYS", Commented (Words "ICRS") "Type of coordinate system");
     ("RA_PNT", Commented (Number ra) "[deg] Pointing RA"); ("DEC_PNT", Commented (Number dec) "[deg] Pointing Dec"); ("ROLL_PNT", Commented (Number roll) "[deg] Pointing Roll");
     ("RA_NOM", Commented (Number ra) "[deg] Nominal Pointing RA"); ("DEC_NOM", Commented (Number dec) "[deg] Nominal Pointing Dec");
     ("ROLL_NOM", Commented (Number roll) "[deg] Nominal Pointing Roll")] /\
  columns l' = columns l ++ [("ra", Some "deg"); ("dec", Some "deg"); ("dir", None); ("polarization", None)].
Proof. split; [|split]; reflexivity. Qed.
Print Assumptions C240_pointed.
(** Any list: a pointing works if and only if there is no direction yet, and coordinates, time and polarization angle are there. *)
Theorem C240_when ra dec roll l :
  snd (pointed ra dec roll l) = None <->
  dget "dir" (columns l) = None /\ (forall k, In k ["ra"; "dec"; "time"; "polangle"] -> exists u, dget k (columns l) = Some u).
Proof. exact (pointed_iff ra dec roll l). Qed.
Print Assumptions C240_when.
(** It writes the pointing and the nominal pointing, which are the same, and changes nothing else. *)
Theorem C240_written ra dec roll l : snd (pointed ra dec roll l) = None ->
  let l' := fst (pointed ra dec roll l) in
  (forall k, In k ["RA_PNT"; "RA_NOM"] -> exists c, dget k (header l') = Some (Commented (Number ra) c)) /\
  (forall k, In k ["DEC_PNT"; "DEC_NOM"] -> exists c, dget k (header l') = Some (Commented (Number dec) c)) /\
  (forall k, In k ["ROLL_PNT"; "ROLL_NOM"] -> exists c, dget k (header l') = Some (Commented (Number roll) c)) /\
  dget "dir" (columns l') = Some None /\ dget "polarization" (columns l') = Some None.
Proof. exact (pointed_values ra dec roll l). Qed.
Print Assumptions C240_written.
Theorem C240_kept ra dec roll l :
  (forall k, ~ In k ["RA_PNT"; "DEC_PNT"; "ROLL_PNT"; "RA_NOM"; "DEC_NOM"; "ROLL_NOM"] -> dget k (header (fst (pointed ra dec roll l))) = dget k (header l)) /\
  (forall k, ~ In k ["dir"; "polarization"] -> dget k (columns (fst (pointed ra dec roll l))) = dget k (columns l)).
Proof. exact (pointed_keeps ra dec roll l). Qed.
Print Assumptions C240_kept.
(** Only once: after a pointing, or for a source in the laboratory, a pointing is a ValueError and the list stays as it is. *)
Theorem C240_once ra dec roll ra' dec' roll' l :
  (forall u, dget "dir" (columns l) = Some u -> pointed ra dec roll l = (l, Some ValueError)) /\
  pointed ra dec roll (set_lab l) = (set_lab l, Some ValueError) /\
  pointed ra' dec' roll' (fst (pointed ra dec roll l)) = (fst (pointed ra dec roll l), Some ValueError).
Proof.
  split; [exact (pointed_twice ra dec roll l)|]. split.
  - apply (pointed_twice _ _ _ _ None). cbn [set_lab columns]. rewrite dget_dset_neq, dget_dset_eq by discriminate. reflexivity.
  - destruct (pointed_dir ra dec roll l) as [u H]. exact (pointed_twice ra' dec' roll' _ u H).
Qed.
Print Assumptions C240_once.
(** A pointing that fails writes nothing to the header, and the exception says why. *)
Theorem C240_failed ra dec roll l e : snd (pointed ra dec roll l) = Some e ->
  header (fst (pointed ra dec roll l)) = header l /\ e = (if din "dir" (columns l) then ValueError else KeyError).
Proof. exact (failed_pointing ra dec roll l e). Qed.
Print Assumptions C240_failed.
(** It can not be repeated when the missing column is there: a failed pointing leaves a column of directions that makes the next one fail, too. *)
Theorem C240_repeat_refuted : exists l, snd (pointed 1 2 3 l) = Some KeyError /\
  let l' := fst (pointed 1 2 3 l) in
  snd (pointed 1 2 3 (set_sky l)) = None /\ snd (pointed 1 2 3 (set_sky l')) = Some ValueError.
Proof. exists (new_list "2.0" "2024-01-01" "12:00:00.123456" None None 1000). repeat split; reflexivity. Qed.
Print Assumptions C240_repeat_refuted.
Example ex_C240 : exists l, snd (pointed 1 2 3 l) = None /\ dget "SIMTIME" (header l) = Some (Commented (Words "12:00:00.1") "Time simulation was started")
  /\ dget "SIMUSER" (header l) = Some (Commented (Words "unknown user") "User running simulation").
Proof. exists (set_sky (new_list "2.0" "2024-01-01" "12:00:00.123456" None (Some "host") 1000)). repeat split; reflexivity. Qed.
