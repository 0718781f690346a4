(** C62-C64, C87-C89 and counterexamples for C51-C60: SDDS files, read and written. *)
From Coq Require Import List Bool Arith Ascii String ZArith Reals Lia.
From Verif Require Import PyBase PyText Lte_Spec Sdds_Model Sdds_Spec Sdds_Proofs Sdds_Proofs2 Sdds_Proofs3 Sdds_Proofs4 Sdds_Proofs5 Sdds_Proofs6 Sdds_Proofs7 Sdds_Proofs8 Sdds_Proofs9 Sdds_Proofs10 Sdds_Proofs11 Sdds_Proofs12 Sdds_Proofs13 Sdds_Proofs14 Sdds_Proofs15 Sdds_Proofs16 Sdds_Proofs17 Sdds_Proofs18 Sdds_Samples.
Import ListNotations.
Open Scope Z_scope.

(** run a file that computes *)
Ltac runs := eexists; eexists; split; [vm_compute; reflexivity|]; split; [vm_compute; reflexivity|]; split; vm_compute; reflexivity.
Ltac fails := eexists; eexists; split; [vm_compute; reflexivity|]; vm_compute; reflexivity.

(** a read of one page, or one whose second page raises *)
Definition begin (r : reader) : progress := {| g_pages := r_pages r; g_rows := r_rows r; g_source := source_of r; g_position := start r |}.
Lemma read_one : forall fuel r g1 g2, page_turn r None 0 (begin r) = (g1, Ok true) -> page_turn r None 1 g1 = (g2, Ok false) -> r_ckeys r <> [] ->
  concat_pages (g_pages g2) = Ok (g_pages g2) -> concat_pages (g_rows g2) = Ok (g_rows g2) ->
  read (Datatypes.S (Datatypes.S fuel)) r None = Some (with_lists r (g_pages g2) (g_rows g2) (Some (g_pages g2)) (Some (g_rows g2)), Ok tt).
Proof. intros fuel r g1 g2 A B N C D. unfold read. fold (start r). fold (begin r). cbn [page_loop]. rewrite A. change (0 + 1) with 1. rewrite B, C, D. destruct (r_ckeys r); [contradiction|reflexivity]. Qed.
Lemma read_second_fails : forall fuel r g1 g2 e, page_turn r None 0 (begin r) = (g1, Ok true) -> page_turn r None 1 g1 = (g2, Err e) ->
  read (Datatypes.S (Datatypes.S fuel)) r None = Some (with_lists r (g_pages g2) (g_rows g2) (r_parameters r) (r_columns r), Err e).
Proof. intros fuel r g1 g2 e A B. unfold read. fold (start r). fold (begin r). cbn [page_loop]. rewrite A. change (0 + 1) with 1. now rewrite B. Qed.
Lemma turn_counted_done : forall r i g ls p z rest data src q x, g_source g = Lines ls -> g_position g = p -> 0 <= p -> skipn (Z.to_nat p) ls = dec z :: rest -> z <> 0 ->
  r_ascii r = true -> r_varlen r = false -> r_pkeys r = [[(row_counts, I4)]] -> c_columns (r_content r) <> [] -> truthy (field (r_data r) (T "no_row_counts")) = false ->
  column_data r (Lines ls) (p + 1) (Some z) = Ok (data, src, q) -> stack (r_max r) (r_ckeys r) data = Ok x ->
  page_turn r None i g = ({| g_pages := g_pages g ++ [Some {| a_names := [row_counts]; a_rows := [[VInt z]] |}]; g_rows := g_rows g ++ [x]; g_source := src; g_position := q |}, Ok true).
Proof. intros. erewrite turn_counted by eassumption. cbv zeta. match goal with H : column_data _ _ _ _ = _ |- _ => rewrite H end. match goal with H : stack _ _ _ = _ |- _ => rewrite H end. reflexivity. Qed.
Ltac counted ls z rest := eapply (turn_counted_done _ _ _ (map T ls) 3 z rest); [reflexivity|reflexivity|discriminate|reflexivity|discriminate|reflexivity|reflexivity|reflexivity|discriminate|reflexivity|vm_compute; reflexivity|vm_compute; reflexivity].

(* ------------------------------------------------------------------ *)
(** ** C52 Metadata: text that is not reported as given.
    A description with a double quote: the file that is saved cannot be opened. *)
Theorem C52_quote_refuted : exists w, create_parameter new_writer (par (T "a") (T "5"" pipe") (Some (WInt 5)) (T "long") NoFix) = Ok w /\
  snd (save w false shown shown_cell) = Ok tt /\ open_sdds (saved w) true 100 = Err ValueError.
Proof. eexists. split; [reflexivity|]. split; vm_compute; reflexivity. Qed.
Print Assumptions C52_quote_refuted.

(** A description that ends in a comma loses it. *)
Theorem C52_comma_refuted : exists w r, create_parameter new_writer (par (T "a") (T "first,") (Some (WInt 5)) (T "long") NoFix) = Ok w /\
  open_sdds (saved w) true 100 = Ok r /\ parameter_info r (T "a") (T "description") = Ok (FStr (T "first")).
Proof. eexists. eexists. split; [reflexivity|]. split; vm_compute; reflexivity. Qed.
Print Assumptions C52_comma_refuted.

(** A name with a blank is cut there. *)
Theorem C52_blank_refuted : exists w r, create_parameter new_writer (par (T "beam charge") [] (Some (WInt 5)) (T "long") NoFix) = Ok w /\
  open_sdds (saved w) true 100 = Ok r /\ parameter_info r (T "beam charge") (T "type") = Err KeyError /\ parameter_info r (T "beam") (T "type") = Ok (FStr (T "long")).
Proof. eexists. eexists. split; [reflexivity|]. split; [vm_compute; reflexivity|]. split; vm_compute; reflexivity. Qed.
Print Assumptions C52_blank_refuted.

(** A letter outside ASCII is written as UTF-8 and read as Latin-1: a micro sign (181) comes back
    with another letter (194) in front of it. *)
Definition micro : text := [ascii_of_nat 181].
Theorem C52_letter_refuted : exists w r, create_parameter new_writer (par (T "a") (micro ++ T "m") (Some (WInt 5)) (T "long") NoFix) = Ok w /\
  open_sdds (saved w) true 100 = Ok r /\ parameter_info r (T "a") (T "description") = Ok (FStr ([ascii_of_nat 194] ++ micro ++ T "m")).
Proof. eexists. eexists. split; [reflexivity|]. split; vm_compute; reflexivity. Qed.
Print Assumptions C52_letter_refuted.

(* ------------------------------------------------------------------ *)
(** ** C55 An empty line in the header of an ASCII file that is read in the buffer: the file without
    it is read, with it the read raises. *)
Definition ascii_lines : list string := ["SDDS1"; "&column name=x type=string &end"; "&data mode=ascii &end"; "1"; "first"]%string.
Definition gap_lines : list string := ["SDDS1"; ""; "&column name=x type=string &end"; "&data mode=ascii &end"; "1"; "first"]%string.
Theorem C55_blank_refuted :
  loads (lines_file ascii_lines []) true 100 None 5 (Some [Some {| a_names := [row_counts]; a_rows := [[VInt 1]] |}]) (Some [Some {| a_names := [T "x"]; a_rows := [[VStr (T "first")]] |}]) /\
  load_fails (lines_file gap_lines []) true 100 None 5 ValueError.
Proof.
  split.
  - eexists. eexists. split; [vm_compute; reflexivity|]. split.
    + eapply read_one; [counted ascii_lines 1 [T "first"]|vm_compute; reflexivity|discriminate|reflexivity|reflexivity].
    + split; reflexivity.
  - fails.
Qed.
Print Assumptions C55_blank_refuted.

(* ------------------------------------------------------------------ *)
(** ** C57 Page selection without the buffer: the second of two pages is not the second page. *)
Definition two_pages : text :=
  lines_file ["SDDS1"; "&parameter name=i type=long &end"; "&column name=n type=long &end"; "&data mode=binary &end"]%string
    (little 4 1 ++ little 4 10 ++ little 4 11 ++ little 4 1 ++ little 4 20 ++ little 4 21).
Theorem C57_unbuffered_refuted :
  loads two_pages true 100 (Some [1]) 5 (Some [Some {| a_names := [row_counts; T "i"]; a_rows := [[VInt 1; VInt 20]] |}]) (Some [Some {| a_names := [T "n"]; a_rows := [[VInt 21]] |}]) /\
  loads two_pages false 100 (Some [1]) 5 (Some [Some {| a_names := [row_counts; T "i"]; a_rows := [[VInt 1; VInt 21]] |}]) (Some [Some {| a_names := [T "n"]; a_rows := [] |}]).
Proof. split; runs. Qed.
Print Assumptions C57_unbuffered_refuted.

(* ------------------------------------------------------------------ *)
(** ** C59 Strings that are not returned as they are: empty, with NULs at the end (all are dropped), longer than the
    limit, outside ASCII. *)
Definition string_file (s : text) : text :=
  lines_file ["SDDS1"; "&parameter name=s type=string &end"; "&data mode=binary &end"]%string (little 4 0 ++ little 4 (Z.of_nat (List.length s)) ++ s).
Definition string_table (s : text) : option (list (option array)) := Some [Some {| a_names := [row_counts; T "s"]; a_rows := [[VInt 0; VStr s]] |}].
Theorem C59_empty_refuted : load_fails (string_file []) true 5 None 5 ValueError.
Proof. fails. Qed.
Print Assumptions C59_empty_refuted.
(** without the buffer an empty string is read *)
Theorem C59_empty_partial : loads (string_file []) false 5 None 5 (string_table []) None.
Proof. runs. Qed.
Print Assumptions C59_empty_partial.
Theorem C59_nul_refuted : loads (string_file (T "ab" ++ ["000"%char])) true 5 None 5 (string_table (T "ab")) None /\
  loads (string_file (T "a" ++ ["000"; "b"; "000"; "000"]%char)) true 5 None 5 (string_table (T "a" ++ ["000"; "b"]%char)) None.
Proof. split; runs. Qed.
Print Assumptions C59_nul_refuted.
Theorem C59_long_refuted : loads (string_file (T "abcdefgh")) true 5 None 5 (string_table (T "abcde")) None.
Proof. runs. Qed.
Print Assumptions C59_long_refuted.
Theorem C59_not_ascii_refuted : load_fails (string_file [ascii_of_nat 200]) true 5 None 5 ValueError.
Proof. fails. Qed.
Print Assumptions C59_not_ascii_refuted.

(* ------------------------------------------------------------------ *)
(** ** C60 ASCII pages: two pages in the buffer, where the position is moved twice by the number of
    rows, and a first line of one character without the buffer, where the file seems empty. *)
Definition two_ascii : list string := ["SDDS1"; "&column name=x type=string &end"; "&data mode=ascii &end"; "1"; "first"; "1"; "second"]%string.
Theorem C60_two_pages_refuted : load_fails (lines_file two_ascii []) true 100 None 5 ValueError.
Proof.
  eexists. eexists. split; [vm_compute; reflexivity|]. eapply read_second_fails; [counted two_ascii 1 [T "first"; T "1"; T "second"]|vm_compute; reflexivity].
Qed.
Print Assumptions C60_two_pages_refuted.

Theorem C60_short_line_refuted : forall h ps cs max ap rest c fuel, header_for h ps cs -> ascii_header h -> cs <> [] -> hd [] (apage_lines ap) = [c] -> (0 < fuel)%nat ->
  loads (ascii_file h (ap :: rest)) false max None fuel (Some []) (Some []).
Proof.
  intros h ps cs max ap rest c fuel [HO [DC [FR NO]]] AH NC HD FU. destruct fuel as [|fuel]; [lia|].
  destruct (open_ascii h ps cs (List.concat (map apage_text (ap :: rest))) false max HO DC FR AH NC) as [r [E [SU [RF [RB [RM [RP [P0 [R0 _]]]]]]]]].
  assert (NE : exists ls, apage_lines ap = [c] :: ls) by (destruct (apage_lines ap) as [|l ls]; cbn in HD; [discriminate|subst; eauto]). destruct NE as [ls NE].
  assert (FE : file_end (source_of r) 0 = true).
  { unfold source_of. rewrite RB, RF, RP. cbn [file_end]. rewrite Nat2Z.id, skipn_app, skipn_all, Nat.sub_diag. cbn [skipn app map List.concat]. unfold apage_text at 1. rewrite NE. cbn [map List.concat app flines]. rewrite Ascii.eqb_refl. reflexivity. }
  exists r. eexists. split; [exact E|]. unfold read. rewrite RB. cbn [page_loop]. unfold page_turn. cbn [past g_source g_position]. rewrite FE. cbn [g_pages g_rows]. rewrite P0, R0. cbn [concat_pages].
  rewrite (as_ckeys _ _ _ SU). split; [reflexivity|]. split; reflexivity.
Qed.
Print Assumptions C60_short_line_refuted.
(** Names that are changed in reading: a column named file is returned as file_, and a parameter so
    named cannot be read. *)
Theorem C60_column_name_refuted : loads (lines_file ["SDDS1"; "&column name=file type=string &end"; "&data mode=ascii &end"; "1"; "word"]%string []) true 100 None 5
  (Some [Some {| a_names := [row_counts]; a_rows := [[VInt 1]] |}]) (Some [Some {| a_names := [T "file_"]; a_rows := [[VStr (T "word")]] |}]).
Proof. runs. Qed.
Print Assumptions C60_column_name_refuted.
Theorem C60_names_refuted : loads (lines_file ["SDDS1"; "&column name=""a b"" type=string &end"; "&column name=a_b type=string &end"; "&column name="""" type=string &end"; "&column name=f0 type=string &end";
    "&column name="" "" type=string &end"; "&data mode=ascii &end"; "1"; "one two three four five"]%string []) true 100 None 5
  (Some [Some {| a_names := [row_counts]; a_rows := [[VInt 1]] |}])
  (Some [Some {| a_names := [T "a_b"; T "a_b_1"; T "f1"; T "f0"; T "f2"]; a_rows := [[VStr (T "one"); VStr (T "two"); VStr (T "three"); VStr (T "four"); VStr (T "five")]] |}]).
Proof. runs. Qed.
Print Assumptions C60_names_refuted.
Theorem C60_parameter_name_refuted : forall buffer,
  load_fails (lines_file ["SDDS1"; "&parameter name=file type=string &end"; "&column name=x type=string &end"; "&data mode=ascii &end"; "data.sdds"; "1"; "word"]%string []) buffer 100 None 5 KeyError.
Proof. intros [|]; fails. Qed.
Print Assumptions C60_parameter_name_refuted.
(** Not-a-number is read, and so is any word in a table of several columns, which is -1 as an integer;
    alone a word raises. *)
Theorem C60_not_a_number_partial : loads (lines_file ["SDDS1"; "&column name=x type=double &end"; "&data mode=ascii &end"; "2"; "nan"; "-inf"]%string []) true 100 None 5
  (Some [Some {| a_names := [row_counts]; a_rows := [[VInt 2]] |}]) (Some [Some {| a_names := [T "x"]; a_rows := [[VReal None]; [VReal None]] |}]).
Proof. runs. Qed.
Print Assumptions C60_not_a_number_partial.
Theorem C60_word_refuted : loads (lines_file ["SDDS1"; "&column name=x type=double &end"; "&column name=n type=long &end"; "&data mode=ascii &end"; "1"; "hello world"]%string []) true 100 None 5
  (Some [Some {| a_names := [row_counts]; a_rows := [[VInt 1]] |}]) (Some [Some {| a_names := [T "x"; T "n"]; a_rows := [[VReal None; VInt (-1)]] |}]) /\
  load_fails (lines_file ["SDDS1"; "&column name=x type=double &end"; "&data mode=ascii &end"; "1"; "hello"]%string []) true 100 None 5 ValueError.
Proof. split; [runs|fails]. Qed.
Print Assumptions C60_word_refuted.
(** An integer printed with a point, 5.0, cannot be read where it stands alone: as a parameter or in
    an only column. *)
Theorem C60_integer_refuted : forall buffer,
  load_fails (lines_file ["SDDS1"; "&parameter name=n type=long &end"; "&column name=x type=string &end"; "&data mode=ascii &end"; "5.0"; "1"; "word"]%string []) buffer 100 None 5 ValueError.
Proof. intros [|]; fails. Qed.
Print Assumptions C60_integer_refuted.

(* ------------------------------------------------------------------ *)
(** ** C62 Fixed values.
    Full statement: a parameter written with a fixed value is reported with that value and does not
    disturb the others. Missing: the values 0, 0.0 and the empty text (refuted below), and text
    outside plain text. The value is in the description of the parameter; the tables hold the
    other parameters only. *)
Lemma read_content : forall fuel r sel r' x, read fuel r sel = Some (r', x) -> r_content r' = r_content r.
Proof.
  intros fuel r sel r' x H. unfold read in H. destruct (page_loop fuel r sel 0 _) as [[g [u|e|]]|]; try discriminate; [|injection H as <- <-; reflexivity].
  destruct (concat_pages (g_pages g)) as [ps|e|]; try discriminate; [|injection H as <- <-; reflexivity]. destruct (r_ckeys r); [injection H as <- <-; reflexivity|].
  destruct (concat_pages (g_rows g)) as [cs|e|]; try discriminate; injection H as <- <-; reflexivity.
Qed.
Lemma written_describable : forall w k n vss, can_write w k n vss -> NoDup (map p_name (w_params w)) -> NoDup (map w_name (w_cols w)) -> describable w.
Proof.
  intros w k n vss CW N1 N2. split; [apply params_ok_plain; exact (cw_params _ _ _ _ CW)|]. split; [|split; assumption].
  eapply Forall_impl; [|eapply cols_meta; exact (cw_cols _ _ _ _ CW)]. intros c [M TY]. split; [assumption|]. exists k. assumption.
Qed.
Theorem C62_fixed_partial : forall w k n vss show show_cell buffer max fuel, can_write w k n vss -> can_name w -> NoDup (map p_name (w_params w)) -> (1 < fuel)%nat ->
  buffer = true \/ is_bws (count_byte n) = false ->
  snd (save w false show show_cell) = Ok tt /\
  exists r r', open_sdds (List.concat (fst (save w false show show_cell))) buffer max = Ok r /\ read fuel r None = Some (r', Ok tt) /\
    (forall p, In p (w_params w) -> p_fixed p <> NoFix -> parameter_info r' (p_name p) (T "fixed_value") = Ok (fixed_value (p_fixed p))) /\
    r_parameters r' = Some [Some {| a_names := row_counts :: map fst (given (w_params w)); a_rows := [VInt (Z.of_nat n) :: map snd (given (w_params w))] |}].
Proof.
  intros w k n vss show sc buffer max fuel CW CN ND FU BU.
  destruct (round_trip w k n vss show sc buffer max fuel CW CN FU) as [OK [r [r' [E [R [P [C [F1 F2]]]]]]]].
  - destruct BU as [BU|BU]; [now left|right]. unfold seen, written_page. cbn [pg_rows]. rewrite rows_length. exact BU.
  - split; [exact OK|]. exists r, r'. split; [exact E|]. split; [exact R|]. split; [|exact P]. intros p I NF.
    destruct (told_params r w (written_describable w k n vss CW ND (proj1 (proj2 CN))) F1 F2) as [TP _]. rewrite Forall_forall in TP. destruct (TP p I) as [_ [_ [_ [_ [_ [_ T]]]]]].
    unfold parameter_info in *. now rewrite (read_content _ _ _ _ _ R).
Qed.
Print Assumptions C62_fixed_partial.
Example C62_applies : exists r r', open_sdds (saved writer_1) true 100 = Ok r /\ read 5 r None = Some (r', Ok tt) /\
  parameter_info r' (T "Step") (T "fixed_value") = Ok (FInt (-3)) /\ parameter_info r' (T "Label") (T "fixed_value") = Ok (FStr (T "run 5")) /\
  r_parameters r' = Some [Some {| a_names := [row_counts; T "Charge"; T "Particles"]; a_rows := [[VInt 2; VDouble one; VInt (-7)]] |}].
Proof.
  destruct (C62_fixed_partial writer_1 Double 2 values_1 shown shown_cell true 100 5 writer_1_ok writer_1_names) as [_ [r [r' [E [R [F P]]]]]]; [nodup|lia|now left|].
  exists r, r'. split; [exact E|]. split; [exact R|]. split; [apply (F p_step); [cbn; auto|discriminate]|]. split; [apply (F p_label); [cbn; auto|discriminate]|]. exact P.
Qed.

(** The value zero is not written at all: a file with it is the file without it, in which the
    parameter is expected among the data, and the other parameters are read from the wrong place. *)
Theorem C62_zero_refuted : forall before p after cols ascii show show_cell, p_fixed p = FixInt 0 \/ p_fixed p = FixStr [] ->
  save {| w_params := before ++ p :: after; w_cols := cols |} ascii show show_cell =
  save {| w_params := before ++ {| p_name := p_name p; p_data := p_data p; p_type := p_type p; p_units := p_units p; p_symbol := p_symbol p; p_format := p_format p; p_description := p_description p; p_fixed := NoFix |} :: after; w_cols := cols |} ascii show show_cell.
Proof.
  intros before p after cols ascii show sc F. set (q := {| p_name := p_name p; p_data := p_data p; p_type := p_type p; p_units := p_units p; p_symbol := p_symbol p; p_format := p_format p; p_description := p_description p; p_fixed := NoFix |}).
  assert (L : parameter_line p = parameter_line q). { unfold parameter_line, q. cbn [p_name p_type p_units p_symbol p_format p_description p_fixed]. destruct F as [-> | ->]; reflexivity. }
  assert (K : parameter_pieces ascii show (before ++ p :: after) = parameter_pieces ascii show (before ++ q :: after)).
  { induction before as [|b before IH]; [reflexivity|]. cbn [app parameter_pieces]. now rewrite IH. }
  unfold save, header_pieces. cbn [w_params w_cols]. rewrite K, !map_app. cbn [map]. now rewrite L.
Qed.
Print Assumptions C62_zero_refuted.
Theorem C62_zero_read_refuted : exists w w', create_parameter new_writer (par (T "a") [] None (T "long") (FixInt 0)) = Ok w /\
  create_parameter w (par (T "b") [] (Some (WInt 7)) (T "long") NoFix) = Ok w' /\ snd (save w' false shown shown_cell) = Ok tt /\ load_fails (saved w') true 100 None 5 ValueError.
Proof. eexists. eexists. split; [reflexivity|]. split; [reflexivity|]. split; [reflexivity|]. fails. Qed.
Print Assumptions C62_zero_read_refuted.

(* ------------------------------------------------------------------ *)
(** ** C63 What is on disk.
    Full statement: if save_sdds cannot write a consistent file it leaves what was on disk. It does
    not: the file is emptied first, and nothing restores it. The files under other names are left
    as they are wherever the save stops, and a save that succeeds leaves the whole file. *)
Theorem C63_other_files_partial : forall d name w ascii show show_cell other k, other <> name ->
  get (save_upto k d name w ascii show show_cell) other = get d other /\ get (fst (save_sdds d name w ascii show show_cell)) other = get d other.
Proof. intros. split; now apply get_put_other. Qed.
Print Assumptions C63_other_files_partial.
Theorem C63_complete_partial : forall d name w ascii show show_cell, equal_lengths w -> snd (save_sdds d name w ascii show show_cell) = Ok tt ->
  exists rest, get (fst (save_sdds d name w ascii show show_cell)) name = Some (List.concat (header_pieces w ascii) ++ rest).
Proof.
  intros d name w ascii show sc EL OK. unfold save_sdds in *. cbn [fst snd] in *. destruct (save_head w ascii show sc (stack_some w EL)) as [rest E]. exists (List.concat rest). rewrite get_put, E, concat_app. reflexivity.
Qed.
Print Assumptions C63_complete_partial.
(** columns of different lengths: no error is raised and the file is empty *)
Theorem C63_unequal_refuted : forall d name w ascii show show_cell, ~ equal_lengths w ->
  snd (save_sdds d name w ascii show show_cell) = Ok tt /\ get (fst (save_sdds d name w ascii show show_cell)) name = Some [].
Proof. intros d name w ascii show sc N. unfold save_sdds, save. rewrite unequal_stack by assumption. cbn [fst snd List.concat]. split; [reflexivity|apply get_put]. Qed.
Print Assumptions C63_unequal_refuted.
(** a parameter that cannot be packed: an error, and what was there is gone *)
Theorem C63_pack_refuted : forall w show show_cell name p v, equal_lengths w -> In p (w_params w) -> p_data p = Some v -> p_type p = T "short" \/ p_type p = T "string" ->
  exists content, forall d, get (fst (save_sdds d name w false show show_cell)) name = Some content /\ snd (save_sdds d name w false show show_cell) = Err StructError.
Proof.
  intros w show sc name p v EL I D TY. exists (List.concat (fst (save w false show sc))). intros d. split; [apply get_put|]. apply (save_fails w show sc p v EL I D). intros b. now apply pack_no_code.
Qed.
Print Assumptions C63_pack_refuted.
(** stopping before the first write: the file is empty *)
Theorem C63_crash_refuted : forall d name w ascii show show_cell, get (save_upto 0 d name w ascii show show_cell) name = Some [].
Proof. intros. apply get_put. Qed.
Print Assumptions C63_crash_refuted.
Example C63_applies : exists w, create_parameter new_writer (par (T "i") [] (Some (WInt 3)) (T "short") NoFix) = Ok w /\
  get (fst (save_sdds [(T "f", T "precious")] (T "f") w false shown shown_cell)) (T "f") <> Some (T "precious") /\ ~ equal_lengths {| w_params := []; w_cols := [colm (T "x") (CInt16 [1]) (T "short"); colm (T "y") (CInt16 []) (T "short")] |}.
Proof. eexists. split; [reflexivity|]. split; [vm_compute; discriminate|]. intros H. specialize (H _ _ (or_introl eq_refl) (or_intror (or_introl eq_refl))). discriminate. Qed.

(* ------------------------------------------------------------------ *)
(** ** C64 Columns of several types.
    Full statement: columns of different declared types written together are read back. Proved for
    columns that are all double, all short or all long; refuted as soon as they are mixed, and for
    numpy's own integers of 64 bits, which no declared type fits. *)
Theorem C64_one_type_partial : forall w k n vss show show_cell buffer max fuel, can_write w k n vss -> can_name w -> w_cols w <> [] -> (0 < n)%nat ->
  (1 < fuel)%nat -> buffer = true \/ is_bws (count_byte n) = false ->
  snd (save w false show show_cell) = Ok tt /\
  exists p, loads (List.concat (fst (save w false show show_cell))) buffer max None fuel p (Some [Some {| a_names := map w_name (w_cols w); a_rows := rows_from n vss |}]).
Proof.
  intros w k n vss show sc buffer max fuel CW CN NC N0 FU BU. destruct (round_trip w k n vss show sc buffer max fuel CW CN FU) as [OK [r [r' [E [R [P [C _]]]]]]].
  - destruct BU as [BU|BU]; [now left|right]. unfold seen, written_page. cbn [pg_rows]. rewrite rows_length. exact BU.
  - split; [exact OK|]. eexists. exists r, r'. repeat (split; [eassumption || reflexivity|]). rewrite C. destruct (w_cols w); [contradiction|]. destruct n; [lia|reflexivity].
Qed.
Print Assumptions C64_one_type_partial.
Example C64_applies : can_write {| w_params := []; w_cols := [colm (T "i") (CInt16 [1; -2; 3]) (T "short"); colm (T "j") (CInt16 [4; 5; 32767]) (T "short")] |} Short 3 [[VInt 1; VInt (-2); VInt 3]; [VInt 4; VInt 5; VInt 32767]].
Proof.
  constructor; [constructor| |cbn; lia|discriminate]. constructor; [|constructor; [|constructor]]; (split; [col_is|]); (split; [reflexivity|]); (split; [|reflexivity]); (split; [repeat (constructor; [lia|]); constructor|reflexivity]).
Qed.
Theorem C64_mixed_refuted : exists w w', create_column new_writer (colm (T "n") (CInt32 [1]) (T "long")) = Ok w /\ create_column w (colm (T "x") (CDouble [double_bits 0]) (T "double")) = Ok w' /\
  snd (save w' false shown shown_cell) = Ok tt /\
  loads (saved w') true 100 None 5
    (Some [Some {| a_names := [row_counts]; a_rows := [[VInt 1]] |}; Some {| a_names := [row_counts]; a_rows := [[VInt 0]] |}])
    (Some [Some {| a_names := [T "n"; T "x"]; a_rows := [[VInt 0; VDouble (map ascii_of_nat [0; 0; 240; 63; 0; 0; 0; 0]%nat)]] |}]).
Proof. eexists. eexists. split; [reflexivity|]. split; [reflexivity|]. split; [reflexivity|]. runs. Qed.
Print Assumptions C64_mixed_refuted.
Theorem C64_int64_refuted : exists w, create_column new_writer (colm (T "n") (CInt64 [5; 6]) (T "long")) = Ok w /\ snd (save w false shown shown_cell) = Ok tt /\ load_fails (saved w) true 100 None 5 ValueError.
Proof. eexists. split; [reflexivity|]. split; [reflexivity|]. fails. Qed.
Print Assumptions C64_int64_refuted.

(* ------------------------------------------------------------------ *)
(** ** C87 Reading ends.
    Full statement: once a file is open, read() ends, whatever the data are. It does without the
    buffer, for ASCII files, and for any selection of pages. A binary file in the buffer with a
    negative row count can be read for ever. *)
Theorem C87_unbuffered_partial : forall f max r, open_sdds f false max = Ok r -> finishes r None.
Proof. exact unbuffered_ends. Qed.
Print Assumptions C87_unbuffered_partial.
Theorem C87_ascii_partial : forall f max r, open_sdds f true max = Ok r -> r_ascii r = true -> finishes r None.
Proof. exact lines_end. Qed.
Print Assumptions C87_ascii_partial.
Theorem C87_selection_partial : forall f buffer max r S, open_sdds f buffer max = Ok r -> finishes r (Some S).
Proof. intros. apply selected_ends. Qed.
Print Assumptions C87_selection_partial.
Theorem C87_binary_partial : forall h ps cs buffer max pgs n, header_for h ps cs -> binary_header h -> Forall (sound max ps cs) pgs ->
  buffer = true \/ Forall seen pgs -> Forall (same_length n) pgs -> exists r, open_sdds (binary_file h ps cs pgs) buffer max = Ok r /\ finishes r None.
Proof.
  intros h ps cs buffer max pgs n [HO [DC [FR NO]]] BH SO BU EQ.
  destruct (open_ready h ps cs buffer max pgs HO DC FR BH SO BU) as [r [E [RE [P0 [R0 _]]]]]. exists r. split; [exact E|].
  exists (Datatypes.S (List.length pgs)). intros fuel L. destruct (read_more r ps cs pgs [] fuel n RE NO) as [r' [R _]]; [lia| |assumption|assumption|rewrite R; discriminate].
  cbn [app]. eapply Forall_impl; [|exact EQ]. auto.
Qed.
Print Assumptions C87_binary_partial.
Definition negative_count : text := lines_file ["SDDS1"; "&column name=n type=long &end"; "&data mode=binary &end"]%string (little 4 (-1) ++ little 4 7).
Theorem C87_negative_refuted : exists r, open_sdds negative_count true 100 = Ok r /\ never_finishes r None.
Proof.
  eexists. split; [vm_compute; reflexivity|]. intros fuel. unfold read. match goal with |- context [page_loop fuel ?r0 _ _ _] => set (r := r0) end.
  assert (L : forall fuel i ps rs, page_loop fuel r None i {| g_pages := ps; g_rows := rs; g_source := Bytes negative_count; g_position := r_pointer r |} = None).
  { clear fuel. induction fuel as [|fuel IH]; intros i ps rs; [reflexivity|]. cbn [page_loop].
    assert (X : page_turn r None i {| g_pages := ps; g_rows := rs; g_source := Bytes negative_count; g_position := r_pointer r |} =
      ({| g_pages := ps ++ [Some {| a_names := [row_counts]; a_rows := [[VInt (-1)]] |}]; g_rows := rs ++ [Some {| a_names := [T "n"]; a_rows := [[VInt 7]] |}]; g_source := Bytes negative_count; g_position := r_pointer r |}, Ok true)) by (vm_compute; reflexivity).
    rewrite X. apply IH. }
  exact (eq_trans (f_equal (fun o => match o with Some _ => _ | None => None end) (L fuel 0 [] [])) eq_refl) || (change (source_of r) with (Bytes negative_count); cbn [r_buffer r_ascii]; rewrite (L fuel 0 [] []); reflexivity).
Qed.
Print Assumptions C87_negative_refuted.
Example C87_applies : exists r, open_sdds (binary_file (header_1 false) params_1 cols_1 [page_1; page_2]) true 100 = Ok r /\ finishes r None.
Proof. apply (C87_binary_partial (header_1 false) params_1 cols_1 true 100 [page_1; page_2] 2); [apply header_1_for|apply header_1_binary|apply pages_1_sound|now left|apply pages_1_length]. Qed.

(* ------------------------------------------------------------------ *)
(** ** C88 What the writer accepts it can save.
    Full statement: every parameter accepted by create_parameter can be saved. True for double, and
    for long in 32 bits; refuted for short and string, which are accepted but never saved. *)
Theorem C88_numbers_partial : forall w show show_cell, equal_lengths w -> (forall c, In c (w_cols w) -> Z.of_nat (col_length (w_data c)) < 2 ^ 32) ->
  (forall p v, In p (w_params w) -> p_data p = Some v -> (p_type p = T "double" /\ forall t, v <> WStr t) \/ (p_type p = T "long" /\ exists z, v = WInt z /\ - 2 ^ 31 <= z < 2 ^ 31)) ->
  snd (save w false show show_cell) = Ok tt.
Proof.
  intros w show sc EL L H. apply save_succeeds; [assumption| |assumption]. intros p v I D. destruct (H p v I D) as [[-> N]|[-> [z [-> Z0]]]].
  - destruct v as [b|z|t]; [eexists; reflexivity|eexists; reflexivity|now contradiction (N t)].
  - exists (le 4 z). unfold pack. change (teqb (T "long") (T "double")) with false. change (teqb (T "long") (T "long")) with true. cbv iota.
    replace ((- 2 ^ 31 <=? z) && (z <? 2 ^ 31)) with true; [reflexivity|]. symmetry. apply andb_true_iff. split; [apply Z.leb_le|apply Z.ltb_lt]; lia.
Qed.
Print Assumptions C88_numbers_partial.
Theorem C88_types_refuted : forall w p v w' show show_cell, p_type p = T "short" \/ p_type p = T "string" -> p_data p = Some v -> p_fixed p = NoFix -> equal_lengths w ->
  create_parameter w p = Ok w' -> snd (save w' false show show_cell) = Err StructError.
Proof.
  intros w p v w' show sc TY D NF EL C. unfold create_parameter in C. destruct (negb (existsb (teqb (p_type p)) writable_types)); [discriminate|]. rewrite NF in C. cbn [fixed_truthy andb] in C. injection C as <-.
  apply (save_fails _ show sc p v); [exact EL|cbn; apply in_or_app; right; now left|assumption|]. intros b. now apply pack_no_code.
Qed.
Print Assumptions C88_types_refuted.
Example C88_applies : (exists w, create_parameter new_writer (par (T "i") [] (Some (WInt 3)) (T "short") NoFix) = Ok w) /\ (exists w, create_parameter new_writer (par (T "s") [] (Some (WStr (T "a"))) (T "string") NoFix) = Ok w) /\
  snd (save writer_1 false shown shown_cell) = Ok tt.
Proof. split; [eexists; reflexivity|]. split; [eexists; reflexivity|]. vm_compute. reflexivity. Qed.

(* ------------------------------------------------------------------ *)
(** ** C89 ASCII write/read round trip.
    Full statement: saving as text and reading back returns the same names, the same number of rows
    and the numbers that were printed. Columns may be of any mixture of double, short and long.
    Missing: tables without rows, and without the buffer a first line of one character (both
    refuted), names outside plain text (refuted under C52) or changed in reading (refuted under C60),
    an only column of integers (refuted), and parameters of type string. *)
Theorem C89_text_partial : forall w n ks vss show show_cell num (buffer : bool) max fuel, can_write_text w n ks vss -> can_name w ->
  Forall kept_name (map fst (given (w_params w)) ++ map w_name (w_cols w)) -> prints_all w vss show show_cell num -> w_cols w <> [] -> (0 < n)%nat -> (1 < fuel)%nat ->
  (if buffer then ~ In cr (List.concat (fst (save w true show show_cell))) else (1 < List.length (first_line w n show))%nat) ->
  snd (save w true show show_cell) = Ok tt /\
  loads (List.concat (fst (save w true show show_cell))) buffer max None fuel
    (Some [Some {| a_names := map fst (given (w_params w)) ++ [row_counts]; a_rows := [map (as_number num) (map snd (given (w_params w))) ++ [VInt (Z.of_nat n)]] |}])
    (Some [Some {| a_names := map w_name (w_cols w); a_rows := map (map (as_number num)) (rows_from n vss) |}]).
Proof. exact text_round_trip. Qed.
Print Assumptions C89_text_partial.
(** a column of doubles and one of short integers, printed as Python prints them *)
Example C89_applies : forall buffer, loads (List.concat (fst (save writer_3 true show_3 show_cell_3))) buffer 100 None 2
    (Some [Some {| a_names := [T "Charge"; T "Particles"; row_counts]; a_rows := [[VReal (Some 1%R); VInt (-7); VInt 2]] |}])
    (Some [Some {| a_names := [T "x"; T "Turn"]; a_rows := [[VReal (Some 1%R); VInt 1]; [VReal (Some (-2)%R); VInt 2]] |}]).
Proof.
  intros buffer. destruct (C89_text_partial writer_3 2 [Double; Short] values_3 show_3 show_cell_3 number_3 buffer 100 2 writer_3_ok writer_3_names writer_3_kept writer_3_prints) as [_ H]; [discriminate|lia|lia| |exact H].
  destruct buffer; [|vm_compute; lia]. intros I. assert (X : existsb (Ascii.eqb cr) (List.concat (fst (save writer_3 true show_3 show_cell_3))) = true) by (apply existsb_exists; exists cr; split; [assumption|apply Ascii.eqb_refl]). vm_compute in X. discriminate.
Qed.
(** Without the buffer a first line of one character, such as a first parameter 5, or no
    parameter and fewer than ten rows, makes the file seem empty. *)
Theorem C89_short_line_refuted : forall w n ks vss show show_cell num max fuel, can_write_text w n ks vss -> can_name w ->
  prints_all w vss show show_cell num -> w_cols w <> [] -> (0 < n)%nat -> (0 < fuel)%nat -> List.length (first_line w n show) = 1%nat ->
  loads (List.concat (fst (save w true show show_cell))) false max None fuel (Some []) (Some []).
Proof.
  intros w n ks vss show sc num max fuel CW CN PA NC N0 FU FL. destruct (save_text w n ks vss show sc num CW PA NC N0) as [_ E]. rewrite E. pose proof CW as [P [LK [LV CO]] NR]. destruct (text_names w ks LK) as [T1 T2].
  destruct (first_line w n show) as [|c [|d l]] eqn:X; try discriminate.
  assert (L : loads (ascii_file (written_header w true) [text_page w n vss show sc]) false max None fuel (Some []) (Some [])).
  { apply (C60_short_line_refuted _ (layout (w_params w)) (text_layout w ks) max _ [] c); [|apply written_ascii| | |assumption].
    - split; [apply written_ok; [now apply params_ok_plain|]|split; [eapply text_declares; eassumption|split; [apply written_fixed; now apply params_ok_plain|]]].
      + apply Forall_forall. intros k I. pose proof (text_all n (w_cols w) ks vss LK LV CO) as F. clear - F I. induction F as [|e kv cs kvs [M [T _]] F IH]; [contradiction|]. destruct I as [->|I]; [|auto]. split; [exact M|]. eexists. exact T.
      + destruct CN as [N1 [N2 [N3 N4]]]. unfold names_ok. rewrite given_layout, T1. repeat split; assumption.
    - intros Y. apply (f_equal (@List.length _)) in Y. rewrite <- (map_length fst), T1, map_length in Y. destruct (w_cols w); [contradiction|discriminate].
    - rewrite <- X. unfold apage_lines, first_line, text_page. cbn [ap_params ap_rows]. fold (shown_params show (w_params w)). destruct (shown_params show (w_params w)); [|reflexivity]. cbn. now rewrite map_length, rows_length. }
  unfold ascii_file in L. cbn [map List.concat] in L. rewrite app_nil_r in L. exact L.
Qed.
Print Assumptions C89_short_line_refuted.
(** savetxt prints integers with a point and an exponent, which cannot be read back as integers
    unless there is another column. *)
Definition printed_five (c : text) : text := T "5.000000000000000000e+00".
Theorem C89_only_integers_refuted : exists w, create_column new_writer (colm (T "n") (CInt32 (repeat 5 12)) (T "long")) = Ok w /\ snd (save w true shown printed_five) = Ok tt /\
  forall buffer, load_fails (List.concat (fst (save w true shown printed_five))) buffer 100 None 5 ValueError.
Proof. eexists. split; [reflexivity|]. split; [reflexivity|]. intros [|]; fails. Qed.
Print Assumptions C89_only_integers_refuted.
(** Without rows no number of rows is written, and the file cannot be read if there is a parameter. *)
Theorem C89_no_rows_refuted : exists w w', create_parameter new_writer (par (T "s") [] (Some (WStr (T "hello"))) (T "string") NoFix) = Ok w /\
  create_column w (colm (T "x") (CDouble []) (T "double")) = Ok w' /\ snd (save w' true shown shown_cell) = Ok tt /\
  forall buffer, load_fails (List.concat (fst (save w' true shown shown_cell))) buffer 100 None 5 ValueError.
Proof. eexists. eexists. split; [reflexivity|]. split; [reflexivity|]. split; [reflexivity|]. intros buffer. destruct buffer; fails. Qed.
Print Assumptions C89_no_rows_refuted.
