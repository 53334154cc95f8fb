(** Property C18: position keywords. *)
From Verif Require Import Base_Proofs Vec_Proofs Position_Model Position_Proofs.
Open Scope R_scope.
Open Scope string_scope.

Theorem C18_ambiguous : forall kw m, dget "pos4d" kw = Some (Mat4 m) ->
  (dget "position" kw <> None \/ dget "orientation" kw <> None \/ dget "zoom" kw <> None) ->
  parse_position kw = Err ValueError.
Proof. exact parse_ambiguous. Qed.
Print Assumptions C18_ambiguous.
Theorem C18_pos4d : forall kw m, dget "pos4d" kw = Some (Mat4 m) -> dget "position" kw = None ->
  dget "orientation" kw = None -> dget "zoom" kw = None ->
  parse_position kw = if Reqb (det4 m) 0 then Err ValueError else Ok (m, ddel "pos4d" kw).
Proof. exact parse_pos4d. Qed.
Print Assumptions C18_pos4d.
Theorem C18_zoom : forall kw l, dget "pos4d" kw = None -> given_zoom kw l ->
  (length l <> 3%nat \/ exists z, In z l /\ z <= 0) -> parse_position kw = Err ValueError.
Proof. exact parse_zoom. Qed.
Print Assumptions C18_zoom.
(** Otherwise the matrix is translation x rotation x zoom. *)
Theorem C18_product : forall kw t r zx zy zz, dget "pos4d" kw = None -> given_zoom kw [zx; zy; zz] -> given_position kw t ->
  given_orientation kw r -> 0 < zx -> 0 < zy -> 0 < zz -> det3 r <> 0 ->
  exists rest, parse_position kw = Ok (mul4 (translation2aff t) (mul4 (mat2aff r) (zoom2aff (V3 zx zy zz))), rest).
Proof.
  intros kw t r zx zy zz H G GP GO Px Py Pz D. eexists. rewrite (parse_parts kw t r zx zy zz) by assumption.
  rewrite (proj2 (Reqb_false _ _) D), compose_product. reflexivity.
Qed.
Print Assumptions C18_product.
Theorem C18_singular : forall kw t r zx zy zz, dget "pos4d" kw = None -> given_zoom kw [zx; zy; zz] -> given_position kw t ->
  given_orientation kw r -> 0 < zx -> 0 < zy -> 0 < zz -> det3 r = 0 -> parse_position kw = Err ValueError.
Proof.
  intros kw t r zx zy zz H G GP GO Px Py Pz D. rewrite (parse_parts kw t r zx zy zz) by assumption.
  now rewrite (proj2 (Reqb_true _ _) D).
Qed.
Print Assumptions C18_singular.
(** Whatever is accepted is invertible, and keywords that do not describe the position are left for the caller. *)
Theorem C18_invertible : forall kw m rest, parse_position kw = Ok (m, rest) -> det4 m <> 0.
Proof. exact parse_invertible. Qed.
Print Assumptions C18_invertible.
Theorem C18_other_keywords : forall kw m rest k, parse_position kw = Ok (m, rest) ->
  k <> "pos4d" -> k <> "position" -> k <> "orientation" -> k <> "zoom" -> dget k rest = dget k kw.
Proof. exact parse_rest. Qed.
Print Assumptions C18_other_keywords.
(** For a rotation matrix the determinant is 1, so the orientation is accepted. *)
Theorem C18_rotation : forall kw t r zx zy zz, dget "pos4d" kw = None -> given_zoom kw [zx; zy; zz] -> given_position kw t ->
  given_orientation kw r -> 0 < zx -> 0 < zy -> 0 < zz -> rotation r ->
  exists m rest, parse_position kw = Ok (m, rest) /\ det4 m = zx * zy * zz.
Proof.
  intros kw t r zx zy zz H G GP GO Px Py Pz [_ D]. rewrite (parse_parts kw t r zx zy zz) by assumption.
  rewrite (proj2 (Reqb_false _ _)) by lra. do 2 eexists. split; [reflexivity|]. rewrite det_compose, D. cbn. ring.
Qed.
Print Assumptions C18_rotation.
(** A position and a scalar zoom, next to another keyword. *)
Example C18_example : exists rest,
  parse_position [("name", Obj 0); ("zoom", Num 2); ("position", Lst [Num 1; Num 2; Num 3])] =
    Ok (M4 (V4 2 0 0 0) (V4 0 2 0 0) (V4 0 0 2 0) (V4 1 2 3 1), rest) /\ rest = [("name", Obj 0)].
Proof.
  eexists. rewrite (parse_parts _ (V3 1 2 3) id3 2 2 2) by (cbn; (reflexivity || lra)).
  rewrite (proj2 (Reqb_false _ _)) by (vu; lra). split; [|reflexivity]. unfold compose, diag3. vu. do 2 f_equal. repeat f_equal; ring.
Qed.
