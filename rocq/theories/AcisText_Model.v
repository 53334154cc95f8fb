(** Corners of the ACIS chips as text: models /repo/marxs/missions/chandra/det_acis.py:14, 27-29, 99-121 (ACISChip.chip_name, ACIS.get_corners) and the ACIS part of the
    table in /repo/marxs/missions/chandra/data.py:70-166.  [Table.read(..., format='ascii')] is not modelled: the table is the list of its rows with the columns col1 and col4.
    [float] is exact and reads plain decimals only (no exponents, underscores, inf or nan: ValueError here). *)
From Coq Require Import Ascii.
From Verif Require Export Chandra_Model.
Open Scope string_scope.
Open Scope list_scope.

(** ** float(text) *)
Definition digit (c : ascii) : option Z :=
  let n := Z.of_nat (nat_of_ascii c) in if (Z.leb 48 n && Z.leb n 57)%bool then Some (n - 48)%Z else None.
(** the digits at the start of the text after [acc]: their value, their number, the rest *)
Fixpoint digits (s : string) (acc : Z) (n : nat) : Z * nat * string :=
  match s with
  | EmptyString => (acc, n, s)
  | String c s' => match digit c with Some d => digits s' (10 * acc + d)%Z (S n) | None => (acc, n, s) end
  end.
(** value and number of decimals *)
Definition unsigned (s : string) : option (Z * nat) :=
  match digits s 0 0 with
  | (a, n, EmptyString) => if Nat.eqb n 0 then None else Some (a, O)
  | (a, n, String c s') =>
      if Ascii.eqb c "."%char then
        match digits s' a 0 with
        | (b, k, EmptyString) => if Nat.eqb (n + k) 0 then None else Some (b, k)
        | _ => None
        end
      else None
  end.
Definition decimal (s : string) : option (Z * nat) :=
  match s with
  | String c s' =>
      if Ascii.eqb c "-"%char then option_map (fun an => (- fst an, snd an)%Z) (unsigned s')
      else if Ascii.eqb c "+"%char then unsigned s' else unsigned s
  | EmptyString => None
  end.
Definition dec_value (an : Z * nat) : R := (IZR (fst an) / 10 ^ snd an)%R.
Definition float (s : string) : result R := match decimal s with Some an => Ok (dec_value an) | None => Err ValueError end.

(** ** str.split() *)
Definition is_space (c : ascii) : bool :=
  let n := nat_of_ascii c in (Nat.eqb n 32 || (Nat.leb 9 n && Nat.leb n 13) || (Nat.leb 28 n && Nat.leb n 31))%bool.
Fixpoint words_from (cur : string) (s : string) : list string :=
  match s with
  | EmptyString => match cur with EmptyString => [] | _ => [cur] end
  | String c s' =>
      if is_space c then match cur with EmptyString => words_from EmptyString s' | _ => cur :: words_from EmptyString s' end
      else words_from (cur ++ String c EmptyString)%string s'
  end.
Definition words (s : string) : list string := words_from EmptyString s.
(** text[1:-1] *)
Definition inner (s : string) : string := String.substring 1 (String.length s - 2) s.
Fixpoint floats (l : list string) : result (list R) :=
  match l with
  | [] => Ok []
  | s :: l' => bind (float s) (fun x => bind (floats l') (fun xs => Ok (x :: xs)))
  end.

(** ** det_acis.py *)
(** det_acis.py:14 *)
Definition acis_names : list string := ["I0"; "I1"; "I2"; "I3"; "S0"; "S1"; "S2"; "S3"; "S4"; "S5"].
Definition corner_names : list string := ["LL"; "LR"; "UR"; "UL"].
(** det_acis.py:27-29 [chip_name]; negative indices count from the end *)
Definition chip_name (id_num : Z) : result string :=
  let i := if Z.ltb id_num 0 then (id_num + 10)%Z else id_num in
  if (Z.ltb i 0)%bool then Err IndexError else
  match nth_error acis_names (Z.to_nat i) with Some n => Ok ("ACIS-" ++ n)%string | None => Err IndexError end.
(** det_acis.py:116-119: the text in the first row with this name *)
Definition lookup (t : list (string * string)) (name : string) : result string :=
  match filter (fun row => String.eqb (fst row) name) t with row :: _ => Ok (snd row) | [] => Err IndexError end.
Definition corner (t : list (string * string)) (chip c : string) : result (list R) :=
  bind (lookup t ("ACIS-" ++ chip ++ "-" ++ c)%string) (fun text => floats (words (inner text))).
Fixpoint get_chip (t : list (string * string)) (chip : string) (cs : list string) (out : dict (list R)) : result (dict (list R)) :=
  match cs with
  | [] => Ok out
  | c :: cs' => bind (corner t chip c) (fun v => get_chip t chip cs' (dset c v out))
  end.
Fixpoint get_chips (t : list (string * string)) (chips : list string) : result (list (dict (list R))) :=
  match chips with
  | [] => Ok []
  | chip :: chips' => bind (get_chip t chip corner_names []) (fun d => bind (get_chips t chips') (fun ds => Ok (d :: ds)))
  end.
(** det_acis.py:99-121 *)
Definition get_corners (t : list (string * string)) : result (list (dict (list R))) := get_chips t acis_names.

(** data.py:70-166: columns 1 and 4 of the rows for ACIS *)
Definition acis_table : list (string * string) := [
  ("ACIS", "CORNERS AXAF-LSI-1.0/ACIS-I&S&C AXAF-CPC-1.0"); ("ACIS-Title", "ACIS-I/S (AI1) LSI coordinates (mm)"); ("ACIS-chip-size", "(1024, 1024)");
  ("ACIS-I0-LL", "( 2.361 -26.484  23.088 )"); ("ACIS-I0-LR", "( 1.130 -26.546  -1.458 )"); ("ACIS-I0-UR", "(-0.100  -2.001  -1.458 )"); ("ACIS-I0-UL", "( 1.130  -1.939  23.088 )");
  ("ACIS-I1-LL", "( 1.130  23.086  -1.458 )"); ("ACIS-I1-LR", "( 2.360  23.024  23.088 )"); ("ACIS-I1-UR", "( 1.130  -1.521  23.088 )"); ("ACIS-I1-UL", "(-0.100  -1.459  -1.458 )");
  ("ACIS-I2-LL", "( 1.130 -26.546  -1.997 )"); ("ACIS-I2-LR", "( 2.361 -26.484 -26.543 )"); ("ACIS-I2-UR", "( 1.130  -1.939 -26.543 )"); ("ACIS-I2-UL", "(-0.10   -2.001  -1.997 )");
  ("ACIS-I3-LL", "( 2.361  23.024 -26.543 )"); ("ACIS-I3-LR", "( 1.131  23.086  -1.997 )"); ("ACIS-I3-UR", "(-0.100  -1.459  -1.997 )"); ("ACIS-I3-UL", "( 1.13   -1.521 -26.543 )");
  ("ACIS-S0-LL", "( 0.744 -81.170 -59.170 )"); ("ACIS-S0-LR", "( 0.353 -56.597 -59.170 )"); ("ACIS-S0-UR", "( 0.353 -56.597 -34.590 )"); ("ACIS-S0-UL", "( 0.744 -81.170 -34.590 )");
  ("ACIS-S1-LL", "(0.348  -56.133 -59.170 )"); ("ACIS-S1-LR", "(0.099  -31.559 -59.170 )"); ("ACIS-S1-UR", "(0.099  -31.559 -34.590 )"); ("ACIS-S1-UL", "(0.348  -56.133 -34.590 )");
  ("ACIS-S2-LL", "( 0.096 -31.100 -59.170 )"); ("ACIS-S2-LR", "(-0.011  -6.524 -59.170 )"); ("ACIS-S2-UR", "(-0.011  -6.524 -34.590 )"); ("ACIS-S2-UL", "( 0.096 -31.100 -34.590 )");
  ("ACIS-S3-LL", "(-0.011  -6.035 -59.170 )"); ("ACIS-S3-LR", "( 0.024  18.541 -59.170 )"); ("ACIS-S3-UR", "( 0.024  18.541 -34.590 )"); ("ACIS-S3-UL", "(-0.011  -6.035 -34.590 )");
  ("ACIS-S4-LL", "( 0.026  18.970 -59.170 )"); ("ACIS-S4-LR", "( 0.208  43.545 -59.170 )"); ("ACIS-S4-UR", "( 0.208  43.545 -34.590 )"); ("ACIS-S4-UL", "( 0.026  18.970 -34.590 )");
  ("ACIS-S5-LL", "( 0.208  43.986 -59.170 )"); ("ACIS-S5-LR", "( 0.528  68.560 -59.170 )"); ("ACIS-S5-UR", "( 0.528  68.560 -34.590 )"); ("ACIS-S5-UL", "( 0.208  43.986 -34.590 )") ].

(** ** Spec *)
(** digits (each below 10) as text, and the number they stand for *)
Definition digit_text (d : nat) : ascii := ascii_of_nat (48 + d).
Fixpoint digits_text (l : list nat) : string := match l with [] => EmptyString | d :: l' => String (digit_text d) (digits_text l') end.
Definition digits_number (l : list nat) : Z := fold_left (fun a d => (10 * a + Z.of_nat d)%Z) l 0%Z.
(** a decimal number: sign, digits before and after the point *)
Record decimal_number := Dec { d_neg : bool; d_int : list nat; d_frac : list nat }.
Definition decimal_ok (x : decimal_number) : Prop := Forall (fun d => (d < 10)%nat) (d_int x) /\ Forall (fun d => (d < 10)%nat) (d_frac x) /\ d_int x <> [].
Definition decimal_text (x : decimal_number) : string := ((if d_neg x then "-" else "") ++ digits_text (d_int x) ++ "." ++ digits_text (d_frac x))%string.
Definition decimal_value (x : decimal_number) : R :=
  ((if d_neg x then -1 else 1) * (IZR (digits_number (d_int x)) + IZR (digits_number (d_frac x)) / 10 ^ List.length (d_frac x)))%R.
Fixpoint blanks (n : nat) : string := match n with O => EmptyString | S n' => String " " (blanks n') end.
(** any number of decimals in brackets, with blanks before each and after the last; [0] blanks are allowed before the first only *)
Fixpoint numbers_text (l : list (nat * decimal_number)) : string :=
  match l with [] => EmptyString | (n, x) :: l' => (blanks n ++ decimal_text x ++ numbers_text l')%string end.
Definition bracket_text (l : list (nat * decimal_number)) (last : nat) : string := ("(" ++ numbers_text l ++ blanks last ++ ")")%string.
Definition separated (l : list (nat * decimal_number)) : Prop := match l with [] => True | _ :: l' => Forall (fun nx => (0 < fst nx)%nat) l' end.
(** the corners that the rest of the model uses *)
Definition as_dict (c : corners) : dict (list R) :=
  let v p := [x3 p; y3 p; z3 p] in [("LL", v (c_LL c)); ("LR", v (c_LR c)); ("UR", v (c_UR c)); ("UL", v (c_UL c))].
(** the texts that are numbers: a sign or none ([Some true]: minus), digits, a point or none, digits after the point; there is at least one digit *)
Record numeral := Num { n_sign : option bool; n_int : list nat; n_point : bool; n_frac : list nat }.
Definition sign_text (s : option bool) : string := match s with Some true => "-" | Some false => "+" | None => "" end.
Definition numeral_text (x : numeral) : string :=
  (sign_text (n_sign x) ++ digits_text (n_int x) ++ (if n_point x then "." ++ digits_text (n_frac x) else ""))%string.
Definition numeral_ok (x : numeral) : Prop :=
  Forall (fun d => (d < 10)%nat) (n_int x) /\ Forall (fun d => (d < 10)%nat) (n_frac x) /\ n_int x ++ n_frac x <> [] /\ (n_point x = false -> n_frac x = []).
Definition numeral_value (x : numeral) : R :=
  ((match n_sign x with Some true => -1 | _ => 1 end) * (IZR (digits_number (n_int x)) + IZR (digits_number (n_frac x)) / 10 ^ List.length (n_frac x)))%R.
(** white space: tab, line feed, vertical tab, form feed, carriage return, the four separators and the blank *)
Definition white_codes : list nat := [9; 10; 11; 12; 13; 28; 29; 30; 31; 32]%nat.
Fixpoint all_white (s : string) : Prop := match s with EmptyString => True | String c s' => In (nat_of_ascii c) white_codes /\ all_white s' end.
Fixpoint none_white (s : string) : Prop := match s with EmptyString => True | String c s' => ~ In (nat_of_ascii c) white_codes /\ none_white s' end.
(** a text made of white space and words in turn *)
Fixpoint spaced (l : list (string * string)) : string := match l with [] => EmptyString | (sp, w) :: l' => (sp ++ w ++ spaced l')%string end.
