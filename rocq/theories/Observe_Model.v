(** Header of an observation with Chandra and ACIS: models /repo/marxs/missions/chandra/chandra_global.py:14-17 (Chandra.process_photons), /repo/marxs/missions/chandra/det_acis.py:46-54 (header written by ACISChip) and
    det_acis.py:152-159 (ACIS.process_photons), with the choice of chips in det_acis.py:97 for all integers. What the detector does with the photons is in Chandra_Model; here a chip either has photons or not. *)
From Verif Require Export Origin_Model Chandra_Model Osip_Model.
Open Scope R_scope.
Open Scope string_scope.
Open Scope list_scope.

(** chandra_global.py:15-16 *)
Definition chandra_header (h : dict entry) : dict entry :=
  dset "TELESCOP" (Commented (Words "CHANDRA") "Telescope") (dset "MISSION" (Commented (Words "AXAF") "Mission") h).
(** det_acis.py:47: the number in the entry ROLL_PNT. An entry that is a number alone has no [0], the first letter of a text is not a number *)
Definition roll_entry (h : dict entry) : result R :=
  match dget "ROLL_PNT" h with
  | Some (Commented (Number r) _) => Ok r
  | Some (Commented (Words _) _) | Some (Alone _) => Err TypeError
  | None => Err KeyError
  end.
(** det_acis.py:46-54 for a chip with photons *)
Definition chip_header (h : dict entry) : result (dict entry) :=
  bind (roll_entry h) (fun _ => Ok
  (dset "ACSYS4" (Commented (Words "SKY:ASC-FP-1.1") "reference for sky coord system")
  (dset "ACSYS3" (Commented (Words "DET:ASC-FP-1.1") "reference for focal plane coord system")
  (dset "ACSYS2" (Commented (Words "TDET:ACIS-2.2") "reference for tiled detector coord system")
  (dset "ACSYS1" (Commented (Words "CHIP:AXAF-ACIS-1.0") "reference for chip coord system") h))))).
(** the chips one after the other (Parallel); optics/base.py:176-177: a chip without photons does nothing *)
Fixpoint chips_header (hit : list bool) (h : dict entry) : result (dict entry) :=
  match hit with
  | [] => Ok h
  | b :: r => bind (if b then chip_header h else Ok h) (chips_header r)
  end.
(** det_acis.py:157 *)
Definition detnam (chips : list Z) : string := String.append "ACIS-" (String.concat "" (map str_int chips)).
(** det_acis.py:152-159 *)
Definition acis_header (aim off : v3) (chips : list Z) (hit : list bool) (h : dict entry) : result (dict entry) :=
  bind (chips_header hit h) (fun h => Ok
  (dset "INSTRUME" (Commented (Words "ACIS") "Instrument")
  (dset "DETNAM" (Alone (Words (detnam chips)))
  (dset "SIM_Z" (Alone (Number (z3 aim - z3 off)))
  (dset "SIM_Y" (Alone (Number (y3 aim - y3 off)))
  (dset "SIM_X" (Alone (Number (x3 aim - x3 off))) h)))))).
(** det_acis.py:97: [self.elements[i]] for an integer, counted from the end if it is negative *)
Definition chip_index (n : nat) (i : Z) : result nat :=
  if (0 <=? i)%Z then if (Z.to_nat i <? n)%nat then Ok (Z.to_nat i) else Err IndexError
  else if (Z.to_nat (- i) <=? n)%nat then Ok (n - Z.to_nat (- i))%nat else Err IndexError.

(** Spec: the chips in a name of a detector: the digits behind the first five letters *)
Fixpoint digits_of (s : string) : list Z :=
  match s with EmptyString => [] | String c r => (Z.of_nat (Ascii.nat_of_ascii c) - 48)%Z :: digits_of r end.
Definition chips_named (s : string) : list Z := digits_of (substring 5 (String.length s - 5) s).
