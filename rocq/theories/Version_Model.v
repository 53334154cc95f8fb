(** The version in the header of photon lists: models /repo/marxs/base/base.py:93-97 and 118-131 (the regular expression for the version, TagVersion) and
    /repo/marxs/_astropy_init.py:6-9. python's [re] is modelled as a matcher with backtracking: repetitions take as many letters as possible first and give
    back letters if the rest does not match. Simplification: \d and \w only for ASCII letters (python's re also takes other digits and letters). *)
From Verif Require Export Meta_Model.
From Coq Require Export Ascii.
Open Scope string_scope.

(** \d, \w and the letters in [\d.dev] *)
Definition digit (c : ascii) : bool := let n := nat_of_ascii c in (Nat.leb 48 n && Nat.leb n 57)%bool.
Definition word_char (c : ascii) : bool :=
  let n := nat_of_ascii c in (digit c || Nat.leb 65 n && Nat.leb n 90 || Nat.leb 97 n && Nat.leb n 122 || Nat.eqb n 95)%bool.
Definition version_char (c : ascii) : bool :=
  (digit c || Ascii.eqb c "." || Ascii.eqb c "d" || Ascii.eqb c "e" || Ascii.eqb c "v")%bool.

(** one or more letters, as many as possible; [k] matches what follows *)
Fixpoint many {X} (p : ascii -> bool) (s : string) (k : string -> string -> option X) : option X :=
  match s with
  | EmptyString => None
  | String c r =>
      if p c then match many p r (fun a => k (String c a)) with Some x => Some x | None => k (String c EmptyString) r end
      else None
  end.
(** [c]? *)
Definition maybe {X} (c : ascii) (s : string) (k : string -> option X) : option X :=
  match s with
  | String a r => if Ascii.eqb a c then match k r with Some x => Some x | None => k s end else k s
  | EmptyString => k s
  end.
(** (c(?P<name>p+))?; [None]: the group does not take part in the match *)
Definition group {X} (c : ascii) (p : ascii -> bool) (s : string) (k : option string -> string -> option X) : option X :=
  match s with
  | String a r => if Ascii.eqb a c then match many p r (fun w => k (Some w)) with Some x => Some x | None => k None s end else k None s
  | EmptyString => k None s
  end.
(** base.py:93-97: [reexp.match(__version__)]; letters that are left over at the end do not matter *)
Definition parse_version (s : string) : option version :=
  many version_char s (fun a s => many digit s (fun b s =>
  maybe "+" s (fun s => group "g" word_char s (fun git s =>
  maybe "." s (fun s => group "d" digit s (fun dirty _ => Some (mkVer (a ++ b) git dirty))))))).
(** base.py:118-131 with the module variable [ver]; _astropy_init.py:6-9: without a file with the version the text is empty *)
Definition new_tags (s : string) (origin creator : option hval) (kwargs : dict hval) : result (dict hval) :=
  match parse_version s with Some v => Ok (tag_init v origin creator kwargs) | None => Err AttributeError end.
Definition package_version (file : option string) : string := match file with Some s => s | None => "" end.

(** ** Spec *)
Fixpoint all_chars (p : ascii -> bool) (s : string) : Prop := match s with EmptyString => True | String c r => p c = true /\ all_chars p r end.
(** a version as written by setuptools_scm between releases: digits, dots and dev, at least two letters, a digit at the end *)
Definition plain_version (v : string) : Prop := exists u c, v = u ++ String c "" /\ u <> "" /\ all_chars version_char u /\ digit c = true.
Definition hash (g : string) : Prop := g <> "" /\ all_chars word_char g.
Definition date_text (d : string) : Prop := d <> "" /\ all_chars digit d.
Definition opt_ok (P : string -> Prop) (o : option string) : Prop := match o with Some s => P s | None => True end.
Definition well_formed (v : version) : Prop := plain_version (ver_version v) /\ opt_ok hash (ver_git v) /\ opt_ok date_text (ver_dirty v).
(** the text: version, +g and the hash, the date of changes that are not committed (after a dot, or after + if there is no hash) *)
Definition version_text (v : version) : string :=
  ver_version v ++
  match ver_git v, ver_dirty v with
  | None, None => ""
  | Some g, None => "+g" ++ g
  | None, Some d => "+d" ++ d
  | Some g, Some d => "+g" ++ g ++ ".d" ++ d
  end.
(** keywords of the header that tell the version *)
Definition version_keywords : list string := ["MARXSVER"; "MARXSGIT"; "MARXSTIM"]%string.
(** the header of photons from a program with this version *)
Definition tagged (v : version) (date : string) (kw : dict hval) : dict hval := tag_call date (tag_init v None None kw) [] [].
