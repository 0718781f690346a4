(** C132: what the header of a file says about its parameters and columns, whoever wrote it. *)
From Coq Require Import List Bool Arith Ascii String ZArith Reals Lia.
From Verif Require Import PyBase PyText Lte_Spec Sdds_Model Sdds_Spec Sdds_Proofs Sdds_Proofs5 Sdds_Proofs6 Sdds_Proofs7 Sdds_Proofs8 Sdds_Proofs13 Sdds_Samples.
Import ListNotations.
Open Scope Z_scope.

(** the names of commands, each of which has one, no two the same *)
Definition named (cs : list command) (names : list text) : Prop :=
  Forall2 (fun c n => attribute_of c (T "name") = Some n) cs names /\ NoDup names.
(** the attributes that are text, the name among them *)
Definition described_by : list text := [T "name"; T "symbol"; T "units"; T "description"; T "format_string"; T "type"].
(** what is said, nothing if nothing is *)
Definition said (c : command) (k : text) : text := match attribute_of c k with Some v => v | None => [] end.
(** the value of a parameter that the header fixes, by its type *)
Definition fixes (c : command) (x : fval) : Prop :=
  exists v, attribute_of c (T "fixed_value") = Some v /\ v <> [] /\
    ((attribute_of c (T "type") = Some (T "string") /\ x = FStr v) \/
     (attribute_of c (T "type") = Some (T "short") \/ attribute_of c (T "type") = Some (T "long")) /\ (exists z, py_int v = Some z /\ x = FInt z) \/
     (attribute_of c (T "type") = Some (T "double") /\ (exists y, py_float v = Some y /\ x = FReal (Some y)))).

Lemma named_distinct : forall cs ns, named cs ns -> NoDup (map (fun c => attribute_or_empty c (T "name")) cs).
Proof.
  intros cs ns [F N]. replace (map (fun c => attribute_or_empty c (T "name")) cs) with ns; [exact N|].
  clear N. induction F as [|c n cs ns H F IH]; [reflexivity|]. cbn [map]. unfold attribute_or_empty at 1. now rewrite H, <- IH.
Qed.
Lemma named_or_empty : forall c n, attribute_of c (T "name") = Some n -> attribute_or_empty c (T "name") = n.
Proof. intros c n H. unfold attribute_or_empty. now rewrite H. Qed.

(** ** C132 The header is reported as it is written.
    Full statement: text of any kind. Missing: a comma at the end of a text, which is lost, and of
    two definitions under one name the first, which is lost (refuted below). *)
Theorem C132_reported_partial : forall h ps cs pnames cnames data buffer max, header_ok h -> declares h ps cs -> Forall fixed_readable (params_of (h_lines h)) ->
  named (params_of (h_lines h)) pnames -> named (cols_of (h_lines h)) cnames -> attribute_of (h_data h) (T "mode") <> Some (T "ascii") \/ (ascii_header h /\ cs <> []) ->
  exists r, open_sdds (header_text h ++ data) buffer max = Ok r /\
    (forall c n, In c (params_of (h_lines h)) -> attribute_of c (T "name") = Some n ->
      (forall k, In k described_by -> parameter_info r n k = Ok (FStr (said c k))) /\
      (attribute_of c (T "fixed_value") = None -> parameter_info r n (T "fixed_value") = Ok FNone) /\
      (forall x, fixes c x -> parameter_info r n (T "fixed_value") = Ok x)) /\
    (forall c n k, In c (cols_of (h_lines h)) -> attribute_of c (T "name") = Some n -> In k described_by -> column_info r n k = Ok (FStr (said c k))).
Proof.
  intros h ps cs pn cn data buffer max HO DC FR NP NC M.
  destruct (open_general h ps cs data buffer max HO DC FR) as [ct [RP [RC [KP [KC E]]]]].
  assert (PK : exists pk, parameter_keys (is_ascii h) max ct (fields_of data_defaults (h_data h)) = Ok pk).
  { unfold parameter_keys. destruct M as [M|[[M1 M2] N]].
    - replace (is_ascii h) with false; [eexists; reflexivity|]. unfold is_ascii. destruct (attribute_of (h_data h) (T "mode")) as [m|]; [|reflexivity].
      symmetry. apply teqb_neq. intros ->. now apply M.
    - destruct (is_ascii h); [|eexists; reflexivity]. cbn [negb]. rewrite counts_field.
      replace (truthy _) with false by (destruct M2 as [-> | ->]; reflexivity). cbn [negb andb].
      destruct (c_columns ct) eqn:CC; [|eexists; reflexivity]. exfalso. apply N. destruct DC as [_ D2]. inversion RC as [Y|]. rewrite <- Y in D2. now inversion D2. }
  destruct PK as [pk PK]. rewrite PK in E. cbn [rbind] in E. rewrite E. eexists. split; [reflexivity|]. split.
  - intros c n I N. destruct (described_rel param_rel _ _ c param_rel_name RP (named_distinct _ _ NP) I) as [d [R D]]. rewrite (named_or_empty _ _ N) in D.
    unfold parameter_info. cbn [r_content]. split; [|split].
    + intros k K. rewrite D, (pr_fields _ _ R) by exact K. reflexivity.
    + intros H. rewrite D. f_equal. apply (pr_data _ _ R). unfold in_data. now rewrite H.
    + intros x (v & Hv & Nv & C). rewrite D. f_equal. destruct (pr_fixed _ _ R v Hv) as [_ P]. unfold parse_fixed_value, attribute_or_empty in P.
      destruct v as [|v0 v]; [contradiction|]. destruct C as [[Ty Hx]|[[[Ty|Ty] (z & Hz & Hx)]|[Ty (y & Hy & Hx)]]]; rewrite Ty in P.
      * change (teqb (T "string") (T "short") || teqb (T "string") (T "long")) with false in P. change (teqb (T "string") (T "double")) with false in P. cbv iota in P. congruence.
      * change (teqb (T "short") (T "short") || teqb (T "short") (T "long")) with true in P. rewrite Hz in P. cbv iota in P. congruence.
      * change (teqb (T "long") (T "short") || teqb (T "long") (T "long")) with true in P. rewrite Hz in P. cbv iota in P. congruence.
      * change (teqb (T "double") (T "short") || teqb (T "double") (T "long")) with false in P. change (teqb (T "double") (T "double")) with true in P. cbv iota in P. rewrite Hy in P. congruence.
  - intros c n k I N K. destruct (described_rel col_rel _ _ c col_rel_name RC (named_distinct _ _ NC) I) as [d [R D]]. rewrite (named_or_empty _ _ N) in D.
    unfold column_info. cbn [r_content]. rewrite D, (cr_fields _ _ R) by exact K. reflexivity.
Qed.
Print Assumptions C132_reported_partial.

(** A file with a quote, a backslash and an ampersand in a description: a 5 inch pipe, the inch
    written as a quote, then c:, a backslash, and x. *)
Definition at_ (k v : text) (q c : bool) : attr := {| at_key := k; at_value := v; at_quoted := q; at_comma := c; at_gap := T " " |}.
Definition pipe : text := T "a 5" ++ [quote_char] ++ T " pipe, c:" ++ [escape_char] ++ T "x &y".
Definition pipe_command : command := {| c_gap := T " "; c_end := [];
  c_attrs := [at_ (T "name") (T "A") false true; at_ (T "description") pipe true true; at_ (T "type") (T "long") false false] |}.
Definition pipe_fixed : command := {| c_gap := T " "; c_end := [];
  c_attrs := [at_ (T "name") (T "B") true true; at_ (T "fixed_value") (T "12") false true; at_ (T "type") (T "short") false false] |}.
Definition pipe_column : command := {| c_gap := T " "; c_end := []; c_attrs := [at_ (T "name") (T "x") false true; at_ (T "type") (T "double") false true; at_ (T "units") (T "m") true false] |}.
Definition pipe_header : header := {| h_before := []; h_first := T "SDDS1"; h_lines := [Param pipe_command; Param pipe_fixed; Col pipe_column];
  h_data := {| c_gap := T " "; c_end := []; c_attrs := [at_ (T "mode") (T "binary") false false] |} |}.
Definition slash : text := [escape_char].
Definition mark : text := [quote_char].

Ltac at_is := split; [key_known|split; [split; [let I := fresh in intros I; cbn in I; repeat (destruct I as [I|I]; [discriminate|]); contradiction|split; [discriminate|]]|split; [discriminate|let d := fresh in intros d [<-|[]]; now left]]].
Ltac unq := let c := fresh in let I := fresh in intros _ c I; cbn in I; repeat (destruct I as [<-|I]; [split; [discriminate|split; [discriminate|split; [intros [?|?]; discriminate|discriminate]]]|]); contradiction.
Lemma gap_is : blanks_only (T " "). Proof. split; [discriminate|]. intros d [<-|[]]. now left. Qed.
Ltac cmd_is := split; [apply gap_is|split; [repeat (apply Forall_cons; [at_is; [first [discriminate|unq]]|]); constructor|split; [repeat constructor; cbn; intuition discriminate|intros ? []]]].
Lemma pipe_header_ok : header_ok pipe_header.
Proof.
  split; [constructor|]. split; [|split; [|split]].
  - split; [intros I; cbn in I; repeat (destruct I as [I|I]; [discriminate|]); contradiction|]. split; [now exists [], []|]. intros r E. discriminate.
  - constructor; [cmd_is|]. constructor; [cmd_is|]. constructor; [cmd_is|]. constructor.
  - cmd_is.
  - intros a I J. cbn in I. destruct I as [<-|[]]. cbn in J. repeat (destruct J as [J|J]; [discriminate|]). contradiction.
Qed.
Example C132_applies : forall data buffer max, exists r, open_sdds (header_text pipe_header ++ data) buffer max = Ok r /\
  header_text pipe_header = lines_text [T "SDDS1"; T "&parameter name=A, description=" ++ mark ++ T "a 5" ++ slash ++ mark ++ T " pipe, c:" ++ slash ++ slash ++ T "x &y" ++ mark ++ T ", type=long &end";
    T "&parameter name=" ++ mark ++ T "B" ++ mark ++ T ", fixed_value=12, type=short &end"; T "&column name=x, type=double, units=" ++ mark ++ T "m" ++ mark ++ T " &end"; T "&data mode=binary &end"] /\
  parameter_info r (T "A") (T "description") = Ok (FStr (T "a 5" ++ mark ++ T " pipe, c:" ++ slash ++ T "x &y")) /\ parameter_info r (T "A") (T "fixed_value") = Ok FNone /\
  parameter_info r (T "B") (T "fixed_value") = Ok (FInt 12) /\ column_info r (T "x") (T "units") = Ok (FStr (T "m")).
Proof.
  intros data buffer max. destruct (C132_reported_partial pipe_header [(T "A", Long)] [(T "x", Double)] [T "A"; T "B"] [T "x"] data buffer max pipe_header_ok) as [r [E [P C]]].
  - split; [constructor; [split; reflexivity|constructor]|constructor; [repeat split; reflexivity|constructor]].
  - cbn [pipe_header h_lines params_of]. constructor; [intros v H; discriminate|]. constructor; [|constructor]. intros v H _. injection H as <-.
    split; [intros _; exists 12; reflexivity|]. intros H. discriminate.
  - split; [repeat constructor|]. repeat constructor; cbn; intuition discriminate.
  - split; [repeat constructor|]. repeat constructor; cbn; intuition discriminate.
  - left. discriminate.
  - exists r. split; [exact E|]. split; [reflexivity|]. destruct (P pipe_command (T "A")) as [P1 [P2 _]]; [now left|reflexivity|]. destruct (P pipe_fixed (T "B")) as [_ [_ P3]]; [right; now left|reflexivity|].
    split; [apply (P1 (T "description")); cbn; tauto|]. split; [now apply P2|]. split; [|apply (C pipe_column (T "x") (T "units")); [now left|reflexivity|cbn; tauto]].
    apply P3. exists (T "12"). split; [reflexivity|]. split; [discriminate|]. right; left. split; [left; reflexivity|]. exists 12. split; reflexivity.
Qed.

(** A comma at the end of a text is lost, in quotes too; of two parameters of one name the second
    is reported. *)
Definition comma_lines : list text := [T "SDDS1"; T "&parameter name=A, description=" ++ mark ++ T "first," ++ mark ++ T ", type=long &end"; T "&data mode=binary &end"].
Theorem C132_comma_refuted : forall buffer max, exists r, open_sdds (lines_text comma_lines) buffer max = Ok r /\ parameter_info r (T "A") (T "description") = Ok (FStr (T "first")).
Proof. intros buffer max. eexists. split; [reflexivity|]. vm_compute. reflexivity. Qed.
Print Assumptions C132_comma_refuted.
Definition twice_lines : list text := [T "SDDS1"; T "&parameter name=A, description=first, type=long &end"; T "&parameter name=A, description=second, type=long &end"; T "&data mode=binary &end"].
Theorem C132_twice_refuted : forall buffer max, exists r, open_sdds (lines_text twice_lines) buffer max = Ok r /\ parameter_info r (T "A") (T "description") = Ok (FStr (T "second")).
Proof. intros buffer max. eexists. split; [reflexivity|]. vm_compute. reflexivity. Qed.
Print Assumptions C132_twice_refuted.
