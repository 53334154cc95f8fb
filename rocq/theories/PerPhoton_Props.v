(** Properties C72 and C73: what holds of the claims on elements written for one photon at a time and on calls that raise. *)
From Verif Require Import Base_Proofs Photons_Proofs Photons_Props.
From Verif Require Export PerPhoton_Proofs.
Local Notation N := Photons_Props.N.
Open Scope nat_scope.

(** ** C72 *)
(** Where the photon list has the extra columns already, all values that process_photon returns are stored for the photon they are computed for, the probability is multiplied and the position is the intersection point. *)
Theorem C72_present_partial : forall e f m ipos icoos t, meth e = PerPhoton f -> loc_coos_name e = None -> id_col e = None -> wf t -> length m = nrows t -> length ipos = nrows t -> length icoos = nrows t ->
  NoDup (five ++ output_columns e) -> incl (five ++ output_columns e) (colnames t) -> (forall i, nth_error m i = Some true -> exists outs q pr, photon_ok e f t i outs q pr) ->
  exists t', process_photons e m ipos icoos t = (t', None) /\ colnames t' = colnames t /\ forall i outs q pr, nth_error m i = Some true -> photon_ok e f t i outs q pr ->
  probability t' i = Some (pr * q)%Q /\ getcell t' "pos" i = nth_error ipos i /\ forall k c, nth_error (five ++ output_columns e) k = Some c -> c <> "probability" -> c <> "pos" -> getcell t' c i = nth_error outs k.
Proof. exact present. Qed.
Print Assumptions C72_present_partial.
(** A photon list with the extra column: the element of C72_example succeeds. *)
Definition t3_order : table := add_col (Some "order") nan t3.
Example C72_present_example : wf t3_order /\ incl (five ++ ["order"]) (colnames t3_order) /\ NoDup (five ++ ["order"]) /\
  (forall i, nth_error m3 i = Some true -> exists outs q pr, photon_ok (per_photon ["order"] [N 1]) (fun d p en po => Ok ([d; p; en; po; N (1#2)] ++ [N 1])) t3_order i outs q pr) /\
  snd (process_photons (per_photon ["order"] [N 1]) m3 ipos3 icoos3 t3_order) = None.
Proof.
  split; [apply Photons_Proofs2.wf_add_col, C01_hit_example|]. split; [intros x X; cbn in X |- *; intuition|]. split; [repeat constructor; cbn; intuition discriminate|]. split; [|reflexivity].
  intros i H. assert (I : i = 0 \/ i = 2 \/ i = 1) by (destruct i as [|[|[|i]]]; auto; destruct i; discriminate). destruct I as [-> | [-> | ->]]; try discriminate; do 3 eexists; unfold photon_ok; do 4 eexists; repeat split; try reflexivity; discriminate.
Qed.
(** ** C73 *)
(** Where the function of the element itself raises, and where the arrays have the wrong length, the photon list is not touched. *)
Theorem C73_early_partial : forall e m ipos icoos t,
  (forall f er, meth e = Specific f -> f t m = Err er -> length m = nrows t -> length ipos = nrows t -> length icoos = nrows t -> existsb (fun b => b) m = true -> process_photons e m ipos icoos t = (t, Some er)) /\
  (length m <> nrows t \/ length ipos <> nrows t \/ length icoos <> nrows t -> process_photons e m ipos icoos t = (t, Some IndexError)).
Proof.
  intros e m ipos icoos t. split.
  - intros f er EM F LM LP LI EX. unfold process_photons. rewrite LM, LP, LI, Nat.eqb_refl, EX. cbn [andb negb]. unfold steps. cbn [fold_right]. unfold andthen at 1, process_values. now rewrite EM, F.
  - intros H. unfold process_photons. assert (X : (Nat.eqb (length m) (nrows t) && Nat.eqb (length ipos) (nrows t) && Nat.eqb (length icoos) (nrows t))%bool = false).
    { destruct (Nat.eqb_spec (length m) (nrows t)), (Nat.eqb_spec (length ipos) (nrows t)), (Nat.eqb_spec (length icoos) (nrows t)); try reflexivity. exfalso. tauto. }
    now rewrite X.
Qed.
Print Assumptions C73_early_partial.
(** Whatever is raised and wherever: no photon is lost or added, columns are only added, and photons that are not hit keep all their values. *)
Theorem C73_missed_partial : forall e m ipos icoos t t' er, process_photons e m ipos icoos t = (t', Some er) -> nrows t' = nrows t /\ (exists new, colnames t' = colnames t ++ new) /\
  forall c i, In c (colnames t) -> nth_error m i <> Some true -> getcell t' c i = getcell t c i.
Proof.
  intros e m ipos icoos t t' er H. destruct (sc_process_photons m e ipos icoos t) as (A & B & C & _). rewrite H in A, B, C. auto.
Qed.
Print Assumptions C73_missed_partial.
Example C73_early_example : exists t', process_photons half_then_bad m3 ipos3 icoos3 t3 = (t', Some ValueError) /\ process_photons half_then_bad [true] ipos3 icoos3 t3 = (t3, Some IndexError).
Proof. eexists. split; reflexivity. Qed.
