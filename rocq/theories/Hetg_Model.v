(** The HETG and the simple mirror of Chandra: models /repo/marxs/missions/chandra/hess.py and hrma_py.py. The design table
    (HESSdesign.rdb) is an argument, only the column with the location of the facets is written out as [hess_rings]. *)
From Coq Require Import Ascii.
From Verif Require Export Cylinder_Model Placement_Model Grating_Model Lens_Model Aperture_Model.
Open Scope R_scope.

(** ** hess.py *)
(** A row of the table: location, center, normal, x and y direction of the facet, direction of the grating lines *)
Record facet := Facet { f_loc : string; f_c : v3; f_u : v3; f_uxf : v3; f_uyf : v3; f_ul : v3 }.
(** [int(hessloc[0])] *)
Definition digit (c : ascii) : option Z := let n := Z.of_nat (nat_of_ascii c) in if ((48 <=? n) && (n <=? 57))%Z%bool then Some (n - 48)%Z else None.
Definition ring (f : facet) : result Z :=
  match f_loc f with
  | EmptyString => Err IndexError
  | String c _ => match digit c with Some n => Ok n | None => Err ValueError end
  end.
(** hess.py:72-77 *)
Definition meg_size : R := 1035 / 1000 * (254 / 10) / 2.
Definition heg_size : R := 920 / 1000 * (254 / 10) / 2.
Definition facet_zoom (f : facet) : result v3 :=
  bind (ring f) (fun n => Ok (if (n <=? 3)%Z then V3 1 meg_size meg_size else V3 1 heg_size heg_size)).
(** hess.py:62-63 *)
Definition hess_offset : v3 := V3 ((339909 / 1000 - 17 / 10) * (254 / 10)) 0 0.
(** hess.py:79-83 *)
Definition facet_pos (f : facet) : result m4 := bind (facet_zoom f) (fun z => Ok (compose (add3 (f_c f) hess_offset) (M3 (f_u f) (f_uxf f) (f_uyf f)) z)).
(** hess.py:35-36 *)
Definition groove_angle (f : facet) : R := - atan2 (dot3 (f_ul f) (f_uxf f)) (dot3 (f_ul f) (f_uyf f)).
(** hess.py:31 *)
Definition meg_period : R := 400195 / 100 / 10000000.
Definition heg_period : R := 200081 / 100 / 10000000.
Definition periods : list R := (repeat meg_period 192 ++ repeat heg_period 144)%list.
(** hess.py:37-40; the order selector is [Obj 0] and the name of facet i (text from the table) is [Obj i]; [Parallel] adds [id_col] *)
Definition hetg_args (table : list facet) : dict pyv :=
  [("order_selector", Obj 0); ("d", Lst (map Num periods)); ("name", Lst (map Obj (seq 0 (length table))));
   ("groove_angle", Lst (map (fun f => Num (groove_angle f)) table)); ("id_col", Obj 1)]%string.
Fixpoint facet_positions (table : list facet) : result (list m4) :=
  match table with
  | [] => Ok []
  | f :: r => bind (facet_pos f) (fun p => bind (facet_positions r) (fun ps => Ok (p :: ps)))
  end.
(** hess.py:44-47: the hinge *)
Definition hinge : v3 := V3 8618 (- 650 * sin (60 * PI / 180)) (650 * cos (60 * PI / 180)).
Definition hetg (pos4d : m4) (name : nat -> pyv) (table : list facet) : result parallel :=
  bind (facet_positions table) (fun ps =>
  Ok (move_center (translation2aff hinge) (translation2aff (neg3 hinge)) (new_parallel pos4d ps (hetg_args table) 0 name))).
(** HESSdesign.rdb: first character of the first column, row by row *)
Definition hess_rings : list Z := (repeat 1 108 ++ repeat 3 84 ++ repeat 4 84 ++ repeat 6 60)%Z%list.
(** Spec: a table with the same rings as the file *)
Definition like_file (table : list facet) : Prop := map ring table = map (@Ok Z) hess_rings.
(** Spec: the three directions of a facet are unit vectors, perpendicular to each other, and right handed; the lines are in the plane of the facet *)
Definition good_row (f : facet) : Prop :=
  orthonormal (M3 (f_u f) (f_uxf f) (f_uyf f)) /\ cross3 (f_u f) (f_uxf f) = f_uyf f /\ dot3 (f_ul f) (f_ul f) = 1 /\ dot3 (f_ul f) (f_u f) = 0.
(** Spec: direction of the dispersion in the file *)
Definition dispersion (f : facet) : v3 := cross3 (f_ul f) (f_u f).

(** ** hrma_py.py *)
Definition focallength : R := 1006165 / 100.
Definition mirror_radii : list (R * R) := [(598, 610); (481, 491); (424, 433); (315, 322)].
(** One ring of [Aperture]: position and inner radius *)
Definition shell_aperture (r : R * R) : m4 * R := (compose (V3 focallength 0 0) id3 (V3 1 (snd r) (snd r)), fst r).
(** hrma_py.py:19-25: keyword [elements] of the user or the four rings; [MultiAperture] numbers them from the offset *)
Definition hrma_aperture (elements : option (list (m4 * R))) (id_col : option string) (offset : Z) : string * list (Z * (m4 * R)) :=
  let elems := match elements with Some l => l | None => map shell_aperture mirror_radii end in
  (match id_col with Some s => s | None => "mirror_shell"%string end, combine (map (fun i => (offset + Z.of_nat i)%Z) (seq 0 (length elems))) elems).
(** hrma_py.py:38-50: the keywords of the user for position, zoom, elements and keywords are replaced. Keywords that are left are given to FlatStack. *)
Definition hrma_position (kwargs : dict pyv) : dict pyv := dset "zoom"%string (Arr [1; 650; 650]) (dset "position"%string (Arr [focallength; 0; 0]) kwargs).
Definition hrma_pos4d (kwargs : dict pyv) : result m4 := bind (parse_position (hrma_position kwargs)) (fun r => Ok (fst r)).
(** A photon at [pos] on the mirror: lens, scatter ([scatter]: any function of the direction), filter of 0.66; direction and probability *)
Definition hrma (m : m4) (scatter : v3 -> v3) (dir pos : v3) (prob : R) : option (v3 * R) :=
  match perfect_lens m 0 focallength (fun _ => 1) dir pos with
  | Some (out, p) => Some (scatter out, prob * p * (66 / 100))
  | None => None
  end.
(** Spec: position of the mirror *)
Definition hrma_m : m4 := compose (V3 focallength 0 0) id3 (V3 1 650 650).
