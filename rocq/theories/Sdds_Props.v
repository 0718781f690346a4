(** C51-C64: SDDS files, read and written. *)
From Coq Require Import List Bool Arith Ascii String ZArith Reals Lia.
From Verif Require Import PyBase PyText Lte_Spec Sdds_Model Sdds_Spec Sdds_Proofs Sdds_Proofs2 Sdds_Proofs3 Sdds_Proofs4 Sdds_Proofs5 Sdds_Proofs6 Sdds_Proofs7 Sdds_Proofs8 Sdds_Proofs9 Sdds_Proofs10 Sdds_Proofs11 Sdds_Proofs12 Sdds_Proofs13 Sdds_Proofs14 Sdds_Proofs15 Sdds_Samples.
Import ListNotations.
Open Scope Z_scope.

(* ------------------------------------------------------------------ *)
(** ** C51 Binary write/read round trip.
    Full statement: for all parameters and columns of doubles, a binary save followed by a read
    returns the same names, rows and bits. Missing: names, units and the like outside plain text,
    tables without rows (refuted below) and, without the buffer, row counts whose second byte is
    white space (refuted under C58). Parameters of 32-bit integers and fixed values are included. *)
Theorem C51_round_trip_partial : forall w n vss show show_cell buffer max fuel, can_write w Double n vss -> can_name w -> w_cols w <> [] -> (0 < n)%nat ->
  (1 < fuel)%nat -> buffer = true \/ is_bws (count_byte n) = false ->
  snd (save w false show show_cell) = Ok tt /\
  loads (List.concat (fst (save w false show show_cell))) buffer max None fuel
    (Some [Some {| a_names := row_counts :: map fst (given (w_params w)); a_rows := [VInt (Z.of_nat n) :: map snd (given (w_params w))] |}])
    (Some [Some {| a_names := map w_name (w_cols w); a_rows := rows_from n vss |}]).
Proof.
  intros w n vss show sc buffer max fuel CW CN NC N0 FU BU. destruct (round_trip w Double n vss show sc buffer max fuel CW CN FU) as [OK [r [r' [E [R [P [C _]]]]]]].
  - destruct BU as [BU|BU]; [now left|right]. unfold seen, written_page. cbn [pg_rows]. rewrite rows_length. exact BU.
  - split; [exact OK|]. exists r, r'. repeat (split; [assumption|]). rewrite C. destruct (w_cols w); [contradiction|]. destruct n; [lia|reflexivity].
Qed.
Print Assumptions C51_round_trip_partial.

(** With no rows the names of the columns are not returned at all. *)
Theorem C51_no_rows_refuted : forall w show show_cell buffer max fuel vss, can_write w Double 0 vss -> can_name w -> w_cols w <> [] -> (1 < fuel)%nat ->
  exists p, loads (List.concat (fst (save w false show show_cell))) buffer max None fuel p (Some []).
Proof.
  intros w show sc buffer max fuel vss CW CN NC FU. destruct (round_trip w Double 0 vss show sc buffer max fuel CW CN FU) as [OK [r [r' [E [R [P [C _]]]]]]]; [right; reflexivity|].
  eexists. exists r, r'. repeat (split; [eassumption || reflexivity|]). rewrite C. destruct (w_cols w); [contradiction|reflexivity].
Qed.
Print Assumptions C51_no_rows_refuted.

(** Four parameters, two of them fixed, and two columns of two doubles, one of them not a number *)
Example C51_applies : forall show show_cell buffer,
  loads (List.concat (fst (save writer_1 false show show_cell))) buffer 100 None 2
    (Some [Some {| a_names := [row_counts; T "Charge"; T "Particles"]; a_rows := [[VInt 2; VDouble one; VInt (-7)]] |}])
    (Some [Some {| a_names := [T "x"; T "xp"]; a_rows := [[VDouble one; VDouble minus_two]; [VDouble nan_bits; VDouble one]] |}]).
Proof.
  intros show sc buffer. destruct (C51_round_trip_partial writer_1 2 values_1 show sc buffer 100 2 writer_1_ok writer_1_names) as [_ H]; [discriminate|lia|lia|now right|exact H].
Qed.

(* ------------------------------------------------------------------ *)
(** ** C52 Metadata.
    Full statement: every name, unit, symbol, description and type given to the writer is reported
    by the reader. Missing: text with quotes, backslashes, line ends, a comma at the end or
    characters outside ASCII, and names with blanks (refuted below). Holds for every mode, for
    columns of any mixture of types, and even if the save fails on the way. *)
Theorem C52_metadata_partial : forall w ascii show show_cell buffer max, describable w -> equal_lengths w -> ascii = false \/ w_cols w <> [] ->
  exists r, open_sdds (List.concat (fst (save w ascii show show_cell))) buffer max = Ok r /\ Forall (told_param r) (w_params w) /\ Forall (told_col r) (w_cols w).
Proof. exact written_told. Qed.
Print Assumptions C52_metadata_partial.

(** columns of doubles and of short integers, in both modes *)
Example C52_applies : forall ascii show show_cell buffer max, exists r, open_sdds (List.concat (fst (save writer_2 ascii show show_cell))) buffer max = Ok r /\
  parameter_info r (T "Charge") (T "symbol") = Ok (FStr (T "q, C")) /\ parameter_info r (T "Step") (T "fixed_value") = Ok (FInt (-3)) /\
  parameter_info r (T "Step") (T "description") = Ok (FStr (T "a=b &x")) /\ column_info r (T "Turn") (T "type") = Ok (FStr (T "short")).
Proof.
  intros a show sc b m. destruct writer_2_ok as [D E]. destruct (C52_metadata_partial writer_2 a show sc b m D E) as [r [O [P C]]]; [right; discriminate|].
  exists r. split; [exact O|]. rewrite Forall_forall in P, C. split; [apply (P p_charge); now left|]. split; [apply (P p_step); right; now left|]. split; [apply (P p_step); right; now left|]. apply (C c_turn). right. now left.
Qed.

(* ------------------------------------------------------------------ *)
(** ** C53 Opening finishes.
    Full statement: opening any file ends. It does not: a file that ends after any number of
    complete header commands, before the data command is complete, is read for ever. *)
Theorem C53_truncated_refuted : forall before first ls buffer max, Forall ignorable before -> first_ok first -> complete ls ->
  open_sdds (lines_text before ++ (first ++ [newline]) ++ lines_text ls) buffer max = Diverges.
Proof. exact never_ends. Qed.
Print Assumptions C53_truncated_refuted.

(** So is an empty file, and one of comments and empty lines: the loop that looks for a line has
    not found one after any number of turns. *)
Theorem C53_empty_refuted : forall before buffer max, Forall ignorable before ->
  open_sdds (lines_text before) buffer max = Diverges /\ forall n, turns n [] (flines (lines_text before)) = None.
Proof.
  intros before buffer max F. split; [now apply empty_never_ends|]. intros n. apply turns_none. rewrite <- (app_nil_r (lines_text before)). unfold lines_text. now rewrite read_line_skips.
Qed.
Print Assumptions C53_empty_refuted.

(** Once the data command is complete, on one line or on several, opening ends, whatever the
    commands say and whatever follows. *)
Theorem C53_finishes_partial : forall before first ls d m e s buffer max, Forall ignorable before -> first_ok first -> complete ls ->
  ~ In newline d -> ~ starts_command d -> (exists r, d = T "&data" ++ r) ->
  (contains (T "&end") d /\ m = [] /\ e = [] \/
   ~ contains (T "&end") d /\ Forall (fun x => ignorable x \/ (~ In newline x /\ ~ ignorable x /\ ~ contains (T "&end") x)) m /\
   ~ In newline e /\ ~ ignorable e /\ contains (T "&end") e) ->
  open_sdds (lines_text before ++ (first ++ [newline]) ++ lines_text ls ++ (d ++ [newline]) ++ lines_text m ++ (match e with [] => [] | _ => e ++ [newline] end) ++ s) buffer max <> Diverges.
Proof. intros. apply open_finishes. now apply header_finishes. Qed.
Print Assumptions C53_finishes_partial.

Lemma contains_b : forall w l, occurs w l = true -> contains w l.
Proof. intros w l H. now apply occurs_spec. Qed.
Lemma not_contains_b : forall w l, occurs w l = false -> ~ contains w l.
Proof. intros w l H C. apply occurs_spec in C. congruence. Qed.
Example C53_applies : exists before first ls, Forall ignorable before /\ first_ok first /\ complete ls /\ before <> [] /\ (3 < List.length ls)%nat.
Proof.
  exists [[]; T "! x"], (T "SDDS1"), [T "&parameter name=a, type=double &end"; T "!"; T "&column name=x,"; []; T "type=double"; T "&end"].
  split; [constructor; [split; [no_char|now left]|constructor; [apply ignorable_comment; no_char|constructor]]|].
  split; [split; [no_char|split; [exists [], []; reflexivity|discriminate]]|]. split; [|split; [discriminate|cbn; lia]].
  apply complete_one; [no_char|intros [_ [E|[r E]]]; discriminate|exists (T "&parameter"); split; [cbn; auto 8|apply contains_b; reflexivity]|apply contains_b; reflexivity|].
  apply complete_skip; [apply ignorable_comment; no_char|].
  apply (complete_many (T "&column name=x,") [[]; T "type=double"] (T "&end") []); [no_char|intros [_ [E|[r E]]]; discriminate|exists (T "&column"); split; [cbn; auto 8|apply contains_b; reflexivity]|apply not_contains_b; reflexivity| |no_char|intros [_ [E|[r E]]]; discriminate|apply contains_b; reflexivity|constructor].
  constructor; [left; split; [no_char|now left]|]. constructor; [|constructor]. right. split; [no_char|]. split; [intros [_ [E|[r E]]]; discriminate|apply not_contains_b; reflexivity].
Qed.

(* ------------------------------------------------------------------ *)
(** ** C54 Files that are not SDDS *)
Theorem C54_first_line : forall before first s buffer max, Forall ignorable before -> ~ In newline first -> ~ ignorable first -> line_ends s ->
  ~ contains (T "SDDS1") first -> open_sdds (lines_text before ++ first ++ s) buffer max = Err GenericException.
Proof. exact rejected_first. Qed.
Print Assumptions C54_first_line.

Theorem C54_header_line : forall before first ls bad s buffer max, Forall ignorable before -> first_ok first -> complete ls ->
  ~ In newline bad -> ~ ignorable bad -> line_ends s -> ~ starts_command bad -> (forall r, bad <> T "&data" ++ r) ->
  open_sdds (lines_text before ++ (first ++ [newline]) ++ lines_text ls ++ bad ++ s) buffer max = Err GenericException.
Proof. exact rejected_line. Qed.
Print Assumptions C54_header_line.

Example C54_applies : (forall s b m, line_ends s -> open_sdds (lines_text [T "! beam"] ++ T "1.0 2.0" ++ s) b m = Err GenericException) /\
  forall s b m, line_ends s -> open_sdds (lines_text [] ++ (T "SDDS1" ++ [newline]) ++ lines_text [T "&parameter name=a, type=double &end"] ++ T "&colum name=x &end" ++ s) b m = Err GenericException.
Proof.
  split; intros s b m E.
  - apply C54_first_line; [constructor; [apply ignorable_comment; no_char|constructor]|no_char|intros [_ [X|[r X]]]; discriminate|assumption|apply not_contains_b; reflexivity].
  - apply C54_header_line; [constructor|split; [no_char|split; [exists [], []; reflexivity|discriminate]]| |no_char|intros [_ [X|[r X]]]; discriminate|assumption| |discriminate].
    + apply complete_one; [no_char|intros [_ [X|[r X]]]; discriminate|exists (T "&parameter"); split; [cbn; auto 8|apply contains_b; reflexivity]|apply contains_b; reflexivity|constructor].
    + intros [w [I C]]. cbn [known_commands In] in I. repeat (destruct I as [<-|I]; [revert C; apply not_contains_b; reflexivity|]). contradiction.
Qed.

(* ------------------------------------------------------------------ *)
(** ** C55 Comments and empty lines in the header.
    Full statement: adding them anywhere in the header changes nothing. The descriptions never
    change: *)
Theorem C55_metadata : forall a b skipped buffer max r, line_start a -> Forall ignorable skipped -> open_sdds (a ++ b) buffer max = Ok r -> Z.of_nat (List.length a) < r_pointer r ->
  exists r', open_sdds (a ++ lines_text skipped ++ b) buffer max = Ok r' /\
    (forall name k, parameter_info r' name k = parameter_info r name k) /\ (forall name k, column_info r' name k = column_info r name k).
Proof.
  intros a b sk buffer max r A F E L. destruct (open_inserted a b sk buffer max r A F E L) as [r' [E' S']]. exists r'. split; [exact E'|]. unfold parameter_info, column_info. unfold shifted in S'. subst r'. split; reflexivity.
Qed.
Print Assumptions C55_metadata.

(** without the buffer, neither do the data, for any file at all: the read ends alike and leaves the
    same tables *)
Theorem C55_unbuffered : forall a b skipped max r r' fuel, line_start a -> Forall ignorable skipped -> open_sdds (a ++ b) false max = Ok r -> Z.of_nat (List.length a) < r_pointer r ->
  open_sdds (a ++ lines_text skipped ++ b) false max = Ok r' ->
  match read fuel r None, read fuel r' None with
  | Some (q, x), Some (q', x') => x = x' /\ r_parameters q' = r_parameters q /\ r_columns q' = r_columns q
  | None, None => True
  | _, _ => False
  end.
Proof. exact read_inserted. Qed.
Print Assumptions C55_unbuffered.

(** nor with the buffer for files of binary pages; *)
Theorem C55_binary_partial : forall h ps cs buffer max pgs a b skipped fuel n, header_for h ps cs -> binary_header h -> Forall (sound max ps cs) pgs ->
  buffer = true \/ Forall seen pgs -> (List.length pgs < fuel)%nat -> Forall (fun pg => has_rows cs pg = true -> same_length n pg) pgs ->
  binary_file h ps cs pgs = a ++ b -> (List.length a < List.length (header_text h))%nat -> line_start a -> Forall ignorable skipped ->
  exists p c, loads (a ++ b) buffer max None fuel p c /\ loads (a ++ lines_text skipped ++ b) buffer max None fuel p c.
Proof.
  intros h ps cs buffer max pgs a b sk fuel n [HO [DC [FR NO]]] BH SO BU FU EQ AB LA A F.
  destruct (read_added h ps cs buffer max pgs a b sk fuel n HO DC FR BH NO SO BU FU EQ AB LA A F) as [r [r' [E [R [P C]]]]].
  destruct (read_added h ps cs buffer max pgs a b [] fuel n HO DC FR BH NO SO BU FU EQ AB LA A (Forall_nil _)) as [r1 [r1' [E1 [R1 [P1 C1]]]]].
  exists (r_parameters r'), (r_columns r'). split; [|exists r, r'; auto]. exists r1, r1'. rewrite P, C. auto.
Qed.
Print Assumptions C55_binary_partial.

(** nor do comments, as opposed to empty lines, for ASCII files in the buffer. *)
Theorem C55_comments_partial : forall a b skipped max r r' fuel pages, line_start a -> Forall (fun l => ignorable l /\ l <> [] /\ ~ In cr l) skipped ->
  open_sdds (a ++ b) true max = Ok r -> Z.of_nat (List.length a) < r_pointer r -> r_ascii r = true -> open_sdds (a ++ lines_text skipped ++ b) true max = Ok r' ->
  match read fuel r pages, read fuel r' pages with
  | Some (q, x), Some (q', x') => x = x' /\ r_parameters q' = r_parameters q /\ r_columns q' = r_columns q
  | None, None => True
  | _, _ => False
  end.
Proof. exact read_comments. Qed.
Print Assumptions C55_comments_partial.

(** two lines added before the first column of a file with two binary pages *)
Example C55_applies : exists a b, binary_file (header_1 false) params_1 cols_1 [page_1; page_2] = a ++ b /\ a <> [] /\
  forall buffer, exists p c, loads (a ++ b) buffer 100 None 3 p c /\ loads (a ++ lines_text [T "! more"; []] ++ b) buffer 100 None 3 p c.
Proof.
  set (k := List.length (lines_text [T "! a file made for testing"; T "SDDS1"; T "!# little-endian"])).
  exists (firstn k (binary_file (header_1 false) params_1 cols_1 [page_1; page_2])), (skipn k (binary_file (header_1 false) params_1 cols_1 [page_1; page_2])).
  split; [symmetry; apply firstn_skipn|]. split; [vm_compute; discriminate|]. intros buffer.
  apply (C55_binary_partial (header_1 false) params_1 cols_1 buffer 100 [page_1; page_2] _ _ _ 3 2); [apply header_1_for|apply header_1_binary|apply pages_1_sound|right; apply pages_1_seen|cbn; lia| |symmetry; apply firstn_skipn| | |].
  - eapply Forall_impl; [|apply pages_1_length]. auto.
  - vm_compute. lia.
  - right. exists (firstn (k - 1) (binary_file (header_1 false) params_1 cols_1 [page_1; page_2])). vm_compute. reflexivity.
  - constructor; [apply ignorable_comment; no_char|]. constructor; [split; [no_char|now left]|constructor].
Qed.

(* ------------------------------------------------------------------ *)
(** ** C56 All pages.
    Full statement: every binary file is read with all its pages, in order. Missing: pages with
    different numbers of rows, or without rows (both refuted below); strings numpy cannot hold
    (under C59); without the buffer, row counts whose second byte is white space (under C58). *)
Lemma all_have_rows : forall cs pgs n, Forall (same_length n) pgs -> (0 < n)%nat -> match cs with [] => None | _ => Some (col_pages cs pgs) end = all_columns cs pgs.
Proof.
  intros [|c cs] pgs n F N; [reflexivity|]. cbn [all_columns]. unfold col_pages. f_equal. rewrite filter_named || idtac.
  replace (filter (has_rows (c :: cs)) pgs) with pgs; [reflexivity|]. symmetry. clear -F N. induction F as [|pg pgs H F IH]; [reflexivity|]. cbn [filter]. unfold same_length in H.
  replace (has_rows (c :: cs) pg) with true; [now rewrite IH|]. unfold has_rows. destruct (pg_rows pg); [cbn in H; lia|reflexivity].
Qed.
Lemma same_any : forall cs pgs n, Forall (same_length n) pgs -> Forall (fun pg => has_rows cs pg = true -> same_length n pg) pgs.
Proof. intros cs pgs n F. eapply Forall_impl; [|exact F]. auto. Qed.
Theorem C56_pages_partial : forall h ps cs buffer max pgs fuel n, header_for h ps cs -> binary_header h -> Forall (sound max ps cs) pgs ->
  buffer = true \/ Forall seen pgs -> (List.length pgs < fuel)%nat -> Forall (same_length n) pgs -> (0 < n)%nat ->
  loads (binary_file h ps cs pgs) buffer max None fuel (Some (param_pages ps pgs)) (all_columns cs pgs).
Proof.
  intros h ps cs buffer max pgs fuel n [HO [DC [FR NO]]] BH SO BU FU EQ N.
  destruct (open_and_read h ps cs buffer max None pgs fuel n HO DC FR BH NO) as [r [r' [E [R [P C]]]]]; auto; [discriminate|now apply same_any|].
  exists r, r'. repeat (split; [assumption|]). rewrite P, C, chosen_all, upto_all. split; [reflexivity|]. rewrite <- (all_have_rows cs pgs n EQ N). destruct cs; [reflexivity|]. now destruct (has_strings _).
Qed.
Print Assumptions C56_pages_partial.

(** Two pages with different numbers of rows: the read raises. *)
Theorem C56_ragged_refuted : forall h ps cs buffer max pgs fuel a b, header_for h ps cs -> binary_header h -> Forall (sound max ps cs) pgs ->
  buffer = true \/ Forall seen pgs -> (List.length pgs < fuel)%nat -> cs <> [] ->
  In a pgs -> In b pgs -> pg_rows a <> [] -> pg_rows b <> [] -> List.length (pg_rows a) <> List.length (pg_rows b) ->
  load_fails (binary_file h ps cs pgs) buffer max None fuel ValueError.
Proof.
  intros h ps cs buffer max pgs fuel a b [HO [DC [FR NO]]] BH SO BU FU NC IA IB NA NB D.
  destruct (open_ready h ps cs buffer max pgs HO DC FR BH SO BU) as [r [E [RE [P0 [R0 _]]]]].
  destruct (read_ragged r ps cs pgs fuel a b RE NO FU P0 R0 NC IA IB NA NB D) as [r' R]. exists r, r'. auto.
Qed.
Print Assumptions C56_ragged_refuted.

(** A page without rows gets no table of columns, so that later tables stand at the wrong place. *)
Theorem C56_empty_page_refuted : forall h ps cs buffer max pgs fuel n, header_for h ps cs -> binary_header h -> Forall (sound max ps cs) pgs ->
  buffer = true \/ Forall seen pgs -> (List.length pgs < fuel)%nat -> cs <> [] -> Forall (fun pg => pg_rows pg <> [] -> same_length n pg) pgs ->
  loads (binary_file h ps cs pgs) buffer max None fuel (Some (param_pages ps pgs))
    (Some (map (fun pg => Some (col_page cs pg)) (filter (fun pg => match pg_rows pg with [] => false | _ => true end) pgs))).
Proof.
  intros h ps cs buffer max pgs fuel n [HO [DC [FR NO]]] BH SO BU FU NC EQ.
  destruct (open_and_read h ps cs buffer max None pgs fuel n HO DC FR BH NO) as [r [r' [E [R [P C]]]]]; auto; [discriminate| |].
  - eapply Forall_impl; [|exact EQ]. intros pg H X. apply H. intros Y. unfold has_rows in X. rewrite Y in X. destruct cs; discriminate.
  - exists r, r'. repeat (split; [assumption|]). rewrite P, C, chosen_all, upto_all. split; [reflexivity|]. destruct cs as [|c cs]; [contradiction|].
    unfold col_pages. replace (filter (has_rows (c :: cs)) pgs) with (filter (fun pg => match pg_rows pg with [] => false | _ => true end) pgs); [now destruct (has_strings _)|]. apply filter_ext. reflexivity.
Qed.
Print Assumptions C56_empty_page_refuted.

Example C56_applies : forall buffer, loads (binary_file (header_1 false) params_1 cols_1 [page_1; page_2]) buffer 100 None 3
    (Some [Some {| a_names := [row_counts; T "Title"; T "Index"]; a_rows := [[VInt 2; VStr (T "first run"); VInt 1]] |};
           Some {| a_names := [row_counts; T "Title"; T "Index"]; a_rows := [[VInt 2; VStr (T "second run"); VInt (-2)]] |}])
    (Some [Some {| a_names := [T "x"; T "tag"]; a_rows := [[VDouble one; VStr (T "a")]; [VDouble nan_bits; VStr (T "b c")]] |};
           Some {| a_names := [T "x"; T "tag"]; a_rows := [[VDouble minus_two; VStr (T "long tag")]; [VDouble one; VStr (T "!")]] |}]).
Proof.
  intros buffer. apply (C56_pages_partial (header_1 false) params_1 cols_1 buffer 100 [page_1; page_2] 3 2);
    [apply header_1_for|apply header_1_binary|apply pages_1_sound|right; apply pages_1_seen|cbn; lia|apply pages_1_length|lia].
Qed.

(* ------------------------------------------------------------------ *)
(** ** C57 Page selection.
    Full statement: read(pages=S) gives exactly the pages with index in S. Missing: the empty
    selection, variable-length strings, and reading without the buffer (all refuted). *)
Theorem C57_selection_partial : forall h ps cs max S pgs fuel n, header_for h ps cs -> binary_header h -> Forall (sound max ps cs) pgs ->
  S <> [] -> has_strings (cs ++ ps) = false -> (List.length pgs < fuel)%nat -> Forall (same_length n) pgs -> (0 < n)%nat ->
  loads (binary_file h ps cs pgs) true max (Some S) fuel (Some (param_pages ps (chosen (Some S) 0 pgs))) (all_columns cs (chosen (Some S) 0 pgs)).
Proof.
  intros h ps cs max S pgs fuel n [HO [DC [FR NO]]] BH SO NS HS FU EQ N.
  destruct (open_and_read h ps cs true max (Some S) pgs fuel n HO DC FR BH NO) as [r [r' [E [R [P C]]]]]; auto; [congruence|now apply same_any|].
  exists r, r'. repeat (split; [assumption|]). rewrite C, HS. apply (all_have_rows cs (chosen (Some S) 0 pgs) n); [|assumption].
  apply Forall_forall. intros pg I. rewrite Forall_forall in EQ. apply EQ. eapply chosen_in. exact I.
Qed.
Print Assumptions C57_selection_partial.

(** With strings the parameters are those of the pages asked for, but the columns are those of all
    pages up to the last one asked for. *)
Lemma upto_one : forall k pgs i, upto (Some [k]) i pgs = firstn (Z.to_nat (k + 1 - i)) pgs.
Proof.
  intros k pgs. induction pgs as [|pg pgs IH]; intros i; [now rewrite firstn_nil|]. cbn [upto stop fold_right]. destruct (Z.ltb_spec k i) as [L|L].
  - replace (Z.to_nat (k + 1 - i)) with O by lia. reflexivity.
  - replace (Z.to_nat (k + 1 - i)) with (Datatypes.S (Z.to_nat (k + 1 - (i + 1)))) by lia. cbn [firstn]. now rewrite IH.
Qed.
Theorem C57_strings_refuted : forall h ps cs buffer max k pgs fuel n, header_for h ps cs -> binary_header h -> Forall (sound max ps cs) pgs ->
  has_strings (cs ++ ps) = true -> cs <> [] -> buffer = true \/ Forall seen pgs -> (List.length pgs < fuel)%nat -> Forall (same_length n) pgs -> (0 < n)%nat ->
  loads (binary_file h ps cs pgs) buffer max (Some [k]) fuel (Some (param_pages ps (chosen (Some [k]) 0 pgs))) (all_columns cs (firstn (Z.to_nat (k + 1)) pgs)).
Proof.
  intros h ps cs buffer max k pgs fuel n [HO [DC [FR NO]]] BH SO HS NC BU FU EQ N.
  destruct (open_and_read h ps cs buffer max (Some [k]) pgs fuel n HO DC FR BH NO) as [r [r' [E [R [P C]]]]]; auto; [discriminate|now apply same_any|].
  exists r, r'. repeat (split; [assumption|]). rewrite C, HS. rewrite upto_one. replace (k + 1 - 0) with (k + 1) by lia. apply (all_have_rows cs (firstn (Z.to_nat (k + 1)) pgs) n); [|assumption].
  apply Forall_forall. intros pg I. rewrite Forall_forall in EQ. apply EQ. rewrite <- (firstn_skipn (Z.to_nat (k + 1)) pgs). apply in_or_app. now left.
Qed.
Print Assumptions C57_strings_refuted.

(** An empty selection raises, whatever the file. *)
Theorem C57_empty_refuted : forall f buffer max r fuel, open_sdds f buffer max = Ok r -> (0 < fuel)%nat -> load_fails f buffer max (Some []) fuel ValueError.
Proof. intros f buffer max r fuel E FU. destruct fuel as [|fuel]; [lia|]. exists r. eexists. split; [exact E|]. reflexivity. Qed.
Print Assumptions C57_empty_refuted.

(** A header without strings and three pages, of which the first and the last are asked for *)
Example C57_applies : loads (binary_file header_2 params_2 cols_2 [page_3 1; page_3 2; page_3 3]) true 100 (Some [2; 0]) 4
    (Some (param_pages params_2 [page_3 1; page_3 3])) (all_columns cols_2 [page_3 1; page_3 3]).
Proof.
  apply (C57_selection_partial header_2 params_2 cols_2 100 [2; 0] [page_3 1; page_3 2; page_3 3] 4 1);
    [apply header_2_for|apply header_2_binary|repeat (constructor; [apply page_3_sound; lia|]); constructor|discriminate|reflexivity|cbn; lia|repeat constructor|lia].
Qed.
(** the same selection from the file with strings gives too many columns *)
Example C57_strings_applies : loads (binary_file (header_1 false) params_1 cols_1 [page_1; page_2]) true 100 (Some [1]) 3
    (Some (param_pages params_1 [page_2])) (all_columns cols_1 [page_1; page_2]).
Proof.
  apply (C57_strings_refuted (header_1 false) params_1 cols_1 true 100 1 [page_1; page_2] 3 2);
    [apply header_1_for|apply header_1_binary|apply pages_1_sound|reflexivity|discriminate|now left|cbn; lia|apply pages_1_length|lia].
Qed.

(* ------------------------------------------------------------------ *)
(** ** C58 Buffering.
    Full statement: with and without the buffer the result is the same. *)
Theorem C58_buffer_partial : forall h ps cs max pgs fuel n, header_for h ps cs -> binary_header h -> Forall (sound max ps cs) pgs ->
  Forall seen pgs -> (List.length pgs < fuel)%nat -> Forall (same_length n) pgs -> (0 < n)%nat ->
  exists p c, loads (binary_file h ps cs pgs) true max None fuel p c /\ loads (binary_file h ps cs pgs) false max None fuel p c.
Proof. intros h ps cs max pgs fuel n HF BH SO SE FU EQ N. eexists. eexists. split; eapply C56_pages_partial; eauto. Qed.
Print Assumptions C58_buffer_partial.

Theorem C58_ascii_partial : forall h ps cs max ap pg fuel, header_for h ps cs -> ascii_header h -> cs <> [] -> asound max ps cs ap pg -> gapless h -> aseen ap -> (1 < fuel)%nat ->
  exists p c, loads (ascii_file h [ap]) true max None fuel p c /\ loads (ascii_file h [ap]) false max None fuel p c.
Proof.
  intros h ps cs max ap pg fuel [HO [DC [FR NO]]] AH NC SO G SE FU.
  assert (EQ : Forall (fun q => has_rows cs q = true -> same_length (List.length (pg_rows pg)) q) [pg]) by (constructor; [reflexivity|constructor]).
  assert (F2 : Forall2 (asound max ps cs) [ap] [pg]) by (constructor; [assumption|constructor]).
  destruct (ascii_read h ps cs true max [ap] [pg] fuel _ HO DC FR AH NC NO F2 (conj G (le_n _)) FU EQ) as [r [r' [E [R [P C]]]]].
  destruct (ascii_read h ps cs false max [ap] [pg] fuel _ HO DC FR AH NC NO F2 (Forall_cons _ SE (Forall_nil _)) FU EQ) as [r1 [r1' [E1 [R1 [P1 C1]]]]].
  eexists. eexists. split; [exists r, r'|exists r1, r1']; eauto.
Qed.
Print Assumptions C58_ascii_partial.

(** If the second byte of the number of rows of the first page is a line end, as for 2560 to 2815
    rows, the file seems empty without the buffer. *)
Lemma skip_header : forall h (s : text), skipn (Z.to_nat (Z.of_nat (List.length (header_text h)))) (header_text h ++ s) = s.
Proof. intros. now rewrite Nat2Z.id, skipn_app, skipn_all, Nat.sub_diag. Qed.
Theorem C58_row_count_refuted : forall h ps cs max pg pgs fuel n, header_for h ps cs -> binary_header h -> Forall (sound max ps cs) (pg :: pgs) -> cs <> [] ->
  (List.length (pg :: pgs) < fuel)%nat -> Forall (same_length n) (pg :: pgs) -> count_byte n = newline ->
  loads (binary_file h ps cs (pg :: pgs)) true max None fuel (Some (param_pages ps (pg :: pgs))) (all_columns cs (pg :: pgs)) /\
  loads (binary_file h ps cs (pg :: pgs)) false max None fuel (Some []) (Some []).
Proof.
  intros h ps cs max pg pgs fuel n HF BH SO NC FU EQ CB. assert (N : (0 < n)%nat) by (destruct n; [discriminate|lia]). split; [eapply C56_pages_partial; eauto|].
  destruct HF as [HO [DC [FR NO]]].
  destruct (open_binary h ps cs (List.concat (map (bytes ps cs) (pg :: pgs))) false max HO DC FR BH) as [r [E [SU [RF [RB [RM [RP [P0 [R0 _]]]]]]]]].
  assert (RD : exists r', read fuel r None = Some (r', Ok tt) /\ r_parameters r' = Some [] /\ r_columns r' = Some []).
  { destruct fuel as [|fuel]; [lia|]. unfold read. cbn [page_loop]. unfold page_turn. cbn [past g_source g_position]. unfold source_of. rewrite RB, RF, RP. cbn [file_end]. rewrite skip_header.
    cbn [map List.concat]. unfold bytes, page_bytes. pose proof (Forall_inv EQ) as SL. unfold same_length in SL. unfold count_byte in CB. rewrite SL.
    set (tail := (stored_all (map snd ps) (pg_params pg) ++ List.concat (map (stored_all (map snd cs)) (pg_rows pg))) ++ List.concat (map (fun p => little 4 (Z.of_nat (List.length (pg_rows p))) ++ stored_all (map snd ps) (pg_params p) ++ List.concat (map (stored_all (map snd cs)) (pg_rows p))) pgs)).
    rewrite <- app_assoc. unfold little. cbn [seq map app]. cbn [nth seq map little] in CB. rewrite CB. cbn [flines readline fst]. rewrite Ascii.eqb_refl. cbn [fst forallb]. change (is_bws newline && true) with true. cbv iota.
    cbn [g_pages g_rows]. rewrite P0, R0. cbn [concat_pages]. destruct (r_ckeys r) as [|k ks] eqn:KK.
    - exfalso. rewrite (su_ckeys _ _ _ SU) in KK. destruct cs as [|c cs]; [contradiction|]. destruct (groups_nonempty (map coded (c :: cs)) []) as [x [y Z]]. rewrite Z in KK. discriminate.
    - eexists. split; [reflexivity|]. split; reflexivity. }
  destruct RD as [r' [RD [A B]]]. exists r, r'. auto.
Qed.
Print Assumptions C58_row_count_refuted.

Example C58_applies : Forall seen [page_1; page_2] /\ Forall (sound 100 params_1 cols_1) [page_1; page_2] /\ header_for (header_1 false) params_1 cols_1 /\ binary_header (header_1 false).
Proof. split; [apply pages_1_seen|]. split; [apply pages_1_sound|]. split; [apply header_1_for|apply header_1_binary]. Qed.
(** 2600 rows are lost *)
Example C58_row_count_applies : forall pg, pg = {| pg_params := [VInt 1]; pg_rows := repeat [VDouble one] 2600 |} ->
  loads (binary_file header_2 params_2 cols_2 [pg]) true 100 None 2 (Some (param_pages params_2 [pg])) (all_columns cols_2 [pg]) /\
  loads (binary_file header_2 params_2 cols_2 [pg]) false 100 None 2 (Some []) (Some []).
Proof.
  intros pg E. apply (C58_row_count_refuted header_2 params_2 cols_2 100 pg [] 2 2600); [apply header_2_for|apply header_2_binary| |discriminate|cbn; lia| |reflexivity].
  - constructor; [|constructor]. subst pg. split; [constructor; [cbn; lia|constructor]|]. split; [|cbn [pg_rows]; rewrite repeat_length; lia].
    cbn [pg_rows]. apply Forall_forall. intros x I. apply repeat_spec in I. subst x. constructor; [reflexivity|constructor].
  - constructor; [|constructor]. subst pg. unfold same_length. cbn [pg_rows]. apply repeat_length.
Qed.

(* ------------------------------------------------------------------ *)
(** ** C59 Strings.
    Full statement: variable-length strings in parameters and columns of binary files are returned
    as they are stored. Missing: strings that are empty, end in NUL, are not ASCII or are longer
    than the limit (refuted below). *)
Theorem C59_strings_partial : forall h ps cs buffer max pgs fuel n, header_for h ps cs -> binary_header h -> Forall (sound max ps cs) pgs ->
  has_strings (cs ++ ps) = true -> buffer = true \/ Forall seen pgs -> (List.length pgs < fuel)%nat -> Forall (same_length n) pgs -> (0 < n)%nat ->
  loads (binary_file h ps cs pgs) buffer max None fuel (Some (param_pages ps pgs)) (all_columns cs pgs).
Proof. intros h ps cs buffer max pgs fuel n HF BH SO _. intros. eapply C56_pages_partial; eauto. Qed.
Print Assumptions C59_strings_partial.

Example C59_applies : has_strings (cols_1 ++ params_1) = true /\ Forall (sound 100 params_1 cols_1) [page_1; page_2] /\ Forall (same_length 2) [page_1; page_2].
Proof. split; [reflexivity|]. split; [apply pages_1_sound|apply pages_1_length]. Qed.

(* ------------------------------------------------------------------ *)
(** ** C60 ASCII pages.
    Full statement: all pages of an ASCII file are read. Missing, without the buffer: pages whose
    first line is a single character (refuted); with the buffer: more than one page (refuted). A line
    of data that is one item must be of its type, and the names must be kept (both refuted else). *)
Theorem C60_unbuffered_partial : forall h ps cs max aps pgs fuel n, header_for h ps cs -> ascii_header h -> cs <> [] -> Forall2 (asound max ps cs) aps pgs ->
  Forall aseen aps -> (List.length pgs < fuel)%nat -> Forall (same_length n) pgs -> (0 < n)%nat ->
  loads (ascii_file h aps) false max None fuel (Some (aparam_pages ps pgs)) (all_columns cs pgs).
Proof.
  intros h ps cs max aps pgs fuel n [HO [DC [FR NO]]] AH NC SO SE FU EQ N.
  destruct (ascii_read h ps cs false max aps pgs fuel n HO DC FR AH NC NO SO SE FU (same_any cs pgs n EQ)) as [r [r' [E [R [P C]]]]].
  exists r, r'. repeat (split; [assumption|]). rewrite C, <- (all_have_rows cs pgs n EQ N). destruct cs; [contradiction|reflexivity].
Qed.
Print Assumptions C60_unbuffered_partial.

Theorem C60_one_page_partial : forall h ps cs buffer max ap pg fuel, header_for h ps cs -> ascii_header h -> cs <> [] -> asound max ps cs ap pg ->
  (if buffer : bool then gapless h else aseen ap) -> (1 < fuel)%nat -> pg_rows pg <> [] ->
  loads (ascii_file h [ap]) buffer max None fuel (Some (aparam_pages ps [pg])) (all_columns cs [pg]).
Proof.
  intros h ps cs buffer max ap pg fuel [HO [DC [FR NO]]] AH NC SO G FU NR.
  assert (EQ : Forall (same_length (List.length (pg_rows pg))) [pg]) by (constructor; [reflexivity|constructor]).
  assert (N : (0 < List.length (pg_rows pg))%nat) by (destruct (pg_rows pg); [contradiction|cbn; lia]).
  assert (BU : if buffer then gapless h /\ (List.length [ap] <= 1)%nat else Forall aseen [ap]) by (destruct buffer; [split; [assumption|cbn; lia]|constructor; [assumption|constructor]]).
  destruct (ascii_read h ps cs buffer max [ap] [pg] fuel _ HO DC FR AH NC NO (Forall2_cons _ _ SO (Forall2_nil _)) BU FU (same_any cs [pg] _ EQ)) as [r [r' [E [R [P C]]]]].
  exists r, r'. repeat (split; [assumption|]). rewrite C, <- (all_have_rows cs [pg] _ EQ N). destruct cs; [contradiction|reflexivity].
Qed.
Print Assumptions C60_one_page_partial.

Example C60_applies : loads (ascii_file (header_1 true) [apage_1; apage_2]) false 100 None 3 (Some (aparam_pages params_1 [apage_1v; apage_2v])) (all_columns cols_1 [apage_1v; apage_2v]) /\
  forall buffer, loads (ascii_file (header_1 true) [apage_1]) buffer 100 None 2 (Some (aparam_pages params_1 [apage_1v])) (all_columns cols_1 [apage_1v]).
Proof.
  split.
  - apply (C60_unbuffered_partial (header_1 true) params_1 cols_1 100 _ _ 3 2); [apply header_1_for|apply header_1_ascii|discriminate|apply apages_sound|apply apages_seen|cbn; lia|repeat constructor|lia].
  - intros buffer. apply C60_one_page_partial; [apply header_1_for|apply header_1_ascii|discriminate| | |lia|discriminate].
    + pose proof apages_sound as A. inversion A. assumption.
    + destruct buffer; [apply header_1_gapless|]. pose proof apages_seen as A. inversion A. assumption.
Qed.

(* ------------------------------------------------------------------ *)
(** ** C61 Reading twice.
    Full statement: a second read() gives the same tables as the first. It does not: every further
    read adds all pages once more. *)
Theorem C61_accumulates_partial : forall h ps cs buffer max pgs fuel n k, header_for h ps cs -> binary_header h -> Forall (sound max ps cs) pgs ->
  buffer = true \/ Forall seen pgs -> (List.length pgs < fuel)%nat -> Forall (same_length n) pgs -> (0 < n)%nat -> cs <> [] ->
  exists r r', open_sdds (binary_file h ps cs pgs) buffer max = Ok r /\ reads (Datatypes.S k) fuel r = Some (r', Ok tt) /\
    r_parameters r' = Some (param_pages ps (again (Datatypes.S k) pgs)) /\ r_columns r' = all_columns cs (again (Datatypes.S k) pgs).
Proof.
  intros h ps cs buffer max pgs fuel n k [HO [DC [FR NO]]] BH SO BU FU EQ N NC.
  destruct (open_ready h ps cs buffer max pgs HO DC FR BH SO BU) as [r [E [RE [P0 [R0 _]]]]].
  destruct (reads_pages (Datatypes.S k) r ps cs pgs fuel n RE NO FU (same_any cs pgs n EQ) P0 R0) as [r' [R [_ [_ [_ X]]]]].
  destruct X as [P C]; [discriminate|]. exists r, r'. repeat (split; [assumption|]). rewrite (C NC). rewrite <- (all_have_rows cs (again (Datatypes.S k) pgs) n); [destruct cs; [contradiction|reflexivity]|now apply again_same|assumption].
Qed.
Print Assumptions C61_accumulates_partial.

Theorem C61_second_read_refuted : forall h ps cs buffer max pgs fuel n, header_for h ps cs -> binary_header h -> Forall (sound max ps cs) pgs ->
  buffer = true \/ Forall seen pgs -> (List.length pgs < fuel)%nat -> Forall (same_length n) pgs -> (0 < n)%nat -> cs <> [] -> pgs <> [] ->
  exists r r1 r2, open_sdds (binary_file h ps cs pgs) buffer max = Ok r /\ read fuel r None = Some (r1, Ok tt) /\ read fuel r1 None = Some (r2, Ok tt) /\
    r_parameters r2 <> r_parameters r1 /\ r_columns r2 <> r_columns r1.
Proof.
  intros h ps cs buffer max pgs fuel n HF BH SO BU FU EQ N NC NP.
  destruct (C61_accumulates_partial h ps cs buffer max pgs fuel n 0 HF BH SO BU FU EQ N NC) as [r [r1 [E [R1 [P1 C1]]]]].
  destruct (C61_accumulates_partial h ps cs buffer max pgs fuel n 1 HF BH SO BU FU EQ N NC) as [r' [r2 [E' [R2 [P2 C2]]]]].
  rewrite E in E'. injection E' as <-. cbn [reads] in R1, R2. rewrite R1 in R2. exists r, r1, r2. repeat (split; [assumption|]). rewrite P1, P2, C1, C2. cbn [again app]. destruct pgs as [|pg pgs]; [contradiction|].
  destruct cs as [|c cs]; [contradiction|]. split; intros X; apply (f_equal (option_map (@List.length _))) in X; cbn in X; rewrite !map_length, ?app_length in X; cbn in X; injection X; lia.
Qed.
Print Assumptions C61_second_read_refuted.

Example C61_applies : exists r r', open_sdds (binary_file (header_1 false) params_1 cols_1 [page_1; page_2]) true 100 = Ok r /\ reads 2 3 r = Some (r', Ok tt) /\
  r_parameters r' = Some (param_pages params_1 [page_1; page_2; page_1; page_2]) /\ r_columns r' = all_columns cols_1 [page_1; page_2; page_1; page_2].
Proof.
  apply (C61_accumulates_partial (header_1 false) params_1 cols_1 true 100 [page_1; page_2] 3 2 1);
    [apply header_1_for|apply header_1_binary|apply pages_1_sound|now left|cbn; lia|apply pages_1_length|lia|discriminate].
Qed.
