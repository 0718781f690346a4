(** Vocabulary for the claims about SDDS files: how values, pages and headers are laid out in a
    file, independently of how the reader and the writer go about it. *)
From Coq Require Import List Bool Arith Ascii String ZArith Reals.
From Verif Require Import PyBase PyText Lte_Spec Sdds_Model.
Import ListNotations.
Open Scope Z_scope.

(* ------------------------------------------------------------------ *)
(** Values and their bytes *)
Inductive kind := Double | Short | Long | Float | Str.
Definition kind_word (k : kind) : text :=
  match k with Double => T "double" | Short => T "short" | Long => T "long" | Float => T "float" | Str => T "string" end.

(** [z] in [k] bytes, least significant first, negative numbers in two's complement *)
Definition little (k : nat) (z : Z) : text :=
  map (fun i => ascii_of_nat (Z.to_nat ((z / 256 ^ Z.of_nat i) mod 256))) (seq 0 k).

(** A string numpy can hold: not empty, no longer than the limit, ASCII, and not ending in NUL *)
Definition plain_string (max : Z) (s : text) : Prop :=
  s <> [] /\ Z.of_nat (List.length s) <= max /\ Z.of_nat (List.length s) < 2 ^ 31 /\
  (forall c, In c s -> (nat_of_ascii c < 128)%nat) /\ last s "000"%char <> "000"%char.

(** values of a kind: doubles and floats are any bits at all *)
Definition fits (max : Z) (k : kind) (v : value) : Prop :=
  match k, v with
  | Double, VDouble b => List.length b = 8%nat
  | Float, VFloat b => List.length b = 4%nat
  | Short, VInt z => - 2 ^ 15 <= z < 2 ^ 15
  | Long, VInt z => - 2 ^ 31 <= z < 2 ^ 31
  | Str, VStr s => plain_string max s
  | _, _ => False
  end.
Definition stored (k : kind) (v : value) : text :=
  match k, v with
  | Double, VDouble b | Float, VFloat b => b
  | Short, VInt z => little 2 z
  | Long, VInt z => little 4 z
  | Str, VStr s => little 4 (Z.of_nat (List.length s)) ++ s
  | _, _ => []
  end.

(** A page: the values of the parameters, and rows with one value per column *)
Record page := { pg_params : list value; pg_rows : list (list value) }.
Fixpoint stored_all (ks : list kind) (vs : list value) : text :=
  match ks, vs with k :: ks, v :: vs => stored k v ++ stored_all ks vs | _, _ => [] end.
Definition page_ok (max : Z) (ps cs : list kind) (pg : page) : Prop :=
  Forall2 (fits max) ps (pg_params pg) /\ Forall (Forall2 (fits max) cs) (pg_rows pg) /\
  Z.of_nat (List.length (pg_rows pg)) < 2 ^ 31.
Definition page_bytes (ps cs : list kind) (pg : page) : text :=
  little 4 (Z.of_nat (List.length (pg_rows pg))) ++ stored_all ps (pg_params pg) ++ List.concat (map (stored_all cs) (pg_rows pg)).

(* ------------------------------------------------------------------ *)
(** Headers: commands with attributes. An attribute is written key=value or key="value", perhaps
    with a comma, and then blanks. In quotes a backslash stands before a quote or a backslash. *)
Record attr := { at_key : text; at_value : text; at_quoted : bool; at_comma : bool; at_gap : text }.
Definition quote_char : ascii := ascii_of_nat 34.
Definition escape_char : ascii := ascii_of_nat 92.
Definition blank_char (c : ascii) : Prop := c = " "%char \/ c = ascii_of_nat 9.
Definition blanks_only (s : text) : Prop := s <> [] /\ forall c, In c s -> blank_char c.
Definition parameter_attributes : list text :=
  [T "name"; T "symbol"; T "units"; T "description"; T "format_string"; T "type"; T "fixed_value"].
Definition column_attributes : list text :=
  [T "name"; T "symbol"; T "units"; T "description"; T "format_string"; T "type"; T "field_length"].
Definition data_attributes : list text := [T "mode"; T "lines_per_row"; T "no_row_counts"; T "additional_header_lines"].

(** Text an attribute can carry: no quote, backslash or line end, no comma at the end; outside
    quotes no blanks either *)
Definition plain_value (quoted : bool) (v : text) : Prop :=
  (forall c, In c v -> c <> quote_char /\ c <> escape_char /\ c <> newline) /\ last v " "%char <> ","%char /\
  (quoted = false -> forall c, In c v -> ~ blank_char c /\ c <> ascii_of_nat 13).
Fixpoint escaped (v : text) : text :=
  match v with
  | [] => []
  | c :: r => (if Ascii.eqb c quote_char || Ascii.eqb c escape_char then [escape_char; c] else [c]) ++ escaped r
  end.
(** ... and in a file that someone else wrote: in quotes anything on one line, without a comma at
    its end *)
Definition carried (quoted : bool) (v : text) : Prop :=
  ~ In newline v /\ last v " "%char <> ","%char /\
  (quoted = false -> forall c, In c v -> c <> quote_char /\ c <> escape_char /\ ~ blank_char c /\ c <> ascii_of_nat 13).
(** Attribute names: words that do not merely begin with one of the names with a meaning. Any
    other attribute may be present. *)
Definition key_ok (keys : list text) (k : text) : Prop :=
  k <> [] /\ (forall c, In c k -> c <> "="%char /\ c <> "&"%char /\ c <> quote_char /\ c <> escape_char /\ c <> newline /\
                                c <> ascii_of_nat 13 /\ ~ blank_char c) /\
  forall m r, In m keys -> k = m ++ r -> k = m.
Definition attr_ok (keys : list text) (a : attr) : Prop :=
  key_ok keys (at_key a) /\ carried (at_quoted a) (at_value a) /\ blanks_only (at_gap a).
Definition attr_text (a : attr) : text :=
  at_key a ++ T "=" ++ (if at_quoted a then [quote_char] ++ escaped (at_value a) ++ [quote_char] else at_value a) ++
  (if at_comma a then T "," else []) ++ at_gap a.
(** ... and blanks, or none, before the end *)
Record command := { c_gap : text; c_attrs : list attr; c_end : text }.
Definition command_ok (keys : list text) (c : command) : Prop :=
  blanks_only (c_gap c) /\ Forall (attr_ok keys) (c_attrs c) /\ NoDup (map at_key (c_attrs c)) /\ (forall d, In d (c_end c) -> blank_char d).
Definition command_text (word : text) (c : command) : text :=
  word ++ c_gap c ++ List.concat (map attr_text (c_attrs c)) ++ c_end c ++ T "&end" ++ [newline].
(** the value of an attribute, if the command has it *)
Definition attribute_of (c : command) (key : text) : option text :=
  option_map at_value (List.find (fun a => teqb (at_key a) key) (c_attrs c)).

(** Header lines: comments and empty lines, parameters, columns *)
Inductive hline := Ignored (l : text) | Param (c : command) | Col (c : command).
Definition ignorable (l : text) : Prop := ~ In newline l /\ (l = [] \/ exists r, l = "!"%char :: r).
Definition names_kind (c : command) (n : text) (k : kind) : Prop :=
  attribute_of c (T "name") = Some n /\ attribute_of c (T "type") = Some (kind_word k).
Definition hline_text (h : hline) : text :=
  match h with
  | Ignored l => l ++ [newline]
  | Param c => command_text (T "&parameter") c
  | Col c => command_text (T "&column") c
  end.
Record header := { h_before : list text; h_first : text; h_lines : list hline; h_data : command }.
Definition header_text (h : header) : text :=
  List.concat (map (fun l => l ++ [newline]) (h_before h)) ++ h_first h ++ [newline] ++
  List.concat (map hline_text (h_lines h)) ++ command_text (T "&data") (h_data h).
(** the parameters and the columns, in order *)
Fixpoint params_of (hs : list hline) : list command :=
  match hs with [] => [] | Param c :: r => c :: params_of r | _ :: r => params_of r end.
Fixpoint cols_of (hs : list hline) : list command :=
  match hs with [] => [] | Col c :: r => c :: cols_of r | _ :: r => cols_of r end.
(** a parameter is in the data unless it has a fixed value *)
Definition in_data (c : command) : bool := match attribute_of c (T "fixed_value") with None => true | Some _ => false end.

(** the first line names the format *)
Definition first_ok (l : text) : Prop :=
  ~ In newline l /\ (exists a b, l = a ++ T "SDDS1" ++ b) /\ forall r, l <> "!"%char :: r.
Definition header_ok (h : header) : Prop :=
  Forall ignorable (h_before h) /\ first_ok (h_first h) /\
  Forall (fun l => match l with
                   | Ignored t => ignorable t
                   | Param c => command_ok parameter_attributes c
                   | Col c => command_ok column_attributes c
                   end) (h_lines h) /\
  command_ok data_attributes (h_data h) /\
  (forall a, In a (c_attrs (h_data h)) -> ~ In "&"%char (at_value a)).

(** What a header declares: the named parameters in the data and the named columns with their
    kinds; strings in columns have no field length *)
Definition declares (h : header) (ps cs : list (text * kind)) : Prop :=
  Forall2 (fun c nk => names_kind c (fst nk) (snd nk)) (filter in_data (params_of (h_lines h))) ps /\
  Forall2 (fun c nk => names_kind c (fst nk) (snd nk) /\ attribute_of c (T "field_length") = None) (cols_of (h_lines h)) cs.

(* ------------------------------------------------------------------ *)
(** The pages a caller asks for: all of them, or those with the given numbers, from zero *)
Definition asked (sel : option (list Z)) (i : Z) : bool := match sel with None => true | Some l => existsb (Z.eqb i) l end.
Fixpoint chosen (sel : option (list Z)) (i : Z) (pgs : list page) : list page :=
  match pgs with [] => [] | pg :: r => if asked sel i then pg :: chosen sel (i + 1) r else chosen sel (i + 1) r end.

(** a fixed value can be read as a value of its type *)
Definition fixed_readable (c : command) : Prop :=
  forall v, attribute_of c (T "fixed_value") = Some v -> v <> [] ->
    (attribute_of c (T "type") = Some (T "short") \/ attribute_of c (T "type") = Some (T "long") -> exists z, py_int v = Some z) /\
    (attribute_of c (T "type") = Some (T "double") -> exists x, py_float v = Some x).

(* ------------------------------------------------------------------ *)
(** What can be handed to the writer *)
Definition ascii_only (s : text) : Prop := forall c, In c s -> (nat_of_ascii c < 128)%nat.
Definition plain_name (s : text) : Prop := s <> [] /\ ascii_only s /\ plain_value false s.
Definition plain_meta (s : text) : Prop := ascii_only s /\ plain_value true s.

(** a fixed value: an integer that is not zero, a float by the text it is shown with, a text *)
Definition fixed_ok (ty : text) (x : fixed) : Prop :=
  match x with
  | NoFix => False
  | FixInt z => (ty = T "short" \/ ty = T "long") /\ z <> 0
  | FixFloat s => ty = T "double" /\ plain_name s /\ exists v, py_float s = Some v /\ v <> 0%R
  | FixStr t => ty = T "string" /\ t <> [] /\ plain_meta t
  end.
Definition fixed_value (x : fixed) : fval :=
  match x with NoFix => FNone | FixInt z => FInt z | FixFloat s => FReal (py_float s) | FixStr t => FStr t end.

(** a parameter with a value: a double or an integer of 32 bits; or one with a fixed value *)
Definition value_ok (ty : text) (v : wvalue) : Prop :=
  match v with
  | WDouble b => ty = T "double" /\ List.length b = 8%nat
  | WInt z => ty = T "long" /\ - 2 ^ 31 <= z < 2 ^ 31
  | WStr _ => False
  end.
Definition param_meta (p : wparam) : Prop :=
  plain_name (p_name p) /\ plain_meta (p_units p) /\ plain_meta (p_symbol p) /\ plain_meta (p_format p) /\ plain_meta (p_description p).
(** a type with a name; a parameter that can be described: plain text, and no fixed value or one
    of its type *)
Definition good_type (t : text) : Prop := exists k, t = kind_word k.
Definition param_plain (p : wparam) : Prop :=
  param_meta p /\ good_type (p_type p) /\ (p_fixed p = NoFix \/ fixed_ok (p_type p) (p_fixed p)).
Definition param_ok (p : wparam) : Prop :=
  param_meta p /\
  match p_data p with Some v => value_ok (p_type p) v /\ p_fixed p = NoFix | None => fixed_ok (p_type p) (p_fixed p) end.

(** columns, all of one kind, of the matching numpy type *)
Definition data_of (k : kind) (d : coldata) (vs : list value) : Prop :=
  match k, d with
  | Double, CDouble l => Forall (fun b => List.length b = 8%nat) l /\ vs = map VDouble l
  | Short, CInt16 l => Forall (fun z => - 2 ^ 15 <= z < 2 ^ 15) l /\ vs = map VInt l
  | Long, CInt32 l => Forall (fun z => - 2 ^ 31 <= z < 2 ^ 31) l /\ vs = map VInt l
  | _, _ => False
  end.
Definition col_meta (c : wcol) : Prop :=
  plain_name (w_name c) /\ plain_meta (w_units c) /\ plain_meta (w_symbol c) /\ plain_meta (w_format c) /\ plain_meta (w_description c) /\ w_length c = 0.
Definition col_ok (k : kind) (n : nat) (c : wcol) (vs : list value) : Prop :=
  col_meta c /\ w_type c = kind_word k /\ data_of k (w_data c) vs /\ List.length vs = n.

(** the names and values of the parameters with values, and the rows of columns *)
Definition given (ps : list wparam) : list (text * value) :=
  flat_map (fun p => match p_data p with
                     | Some (WDouble b) => [(p_name p, VDouble b)]
                     | Some (WInt z) => [(p_name p, VInt z)]
                     | Some (WStr t) => [(p_name p, VStr t)]
                     | None => []
                     end) ps.
Definition rows_from (n : nat) (cols : list (list value)) : list (list value) :=
  map (fun i => map (fun col => nth i col (VInt 0)) cols) (seq 0 n).

(* ------------------------------------------------------------------ *)
(** ASCII pages: one line for each parameter, one with the number of rows, one for each row *)
Record apage := { ap_params : list text; ap_rows : list (list text) }.
(** text that stands for a value: numbers in decimal, strings as they are. An integer may be
    written as a float, like 5.0, unless it is read alone: as a parameter, or in the only column *)
Definition integer_text (alone : bool) (t : text) (z : Z) : Prop := if alone then py_int t = Some z else py_float t = Some (IZR z).
(** a text for a number, or for an infinity or not-a-number ([None]); what else is no number is read
    as not-a-number if it does not stand alone *)
Definition number_text (alone : bool) (t : text) (x : fl) : Prop :=
  match x with
  | Some y => py_float t = Some y
  | None => py_float t = None /\ (alone = true -> In t (map T ["nan"; "inf"; "-inf"; "NaN"; "Infinity"; "-Infinity"]%string))
  end.
Definition reads_as (alone : bool) (max : Z) (k : kind) (t : text) (v : value) : Prop :=
  match k, v with
  | Double, VReal x => number_text alone t x
  | Short, VInt z => integer_text alone t z /\ - 2 ^ 15 <= z < 2 ^ 15
  | Long, VInt z => integer_text alone t z /\ - 2 ^ 31 <= z < 2 ^ 31
  | Str, VStr s => s = t /\ plain_string max t
  | _, _ => False
  end.
(** text that fills a line by itself: no exclamation mark or line end, no blanks at its ends *)
Definition line_text (t : text) : Prop :=
  t <> [] /\ (forall c, In c t -> c <> "!"%char /\ c <> newline /\ c <> cr) /\ List.hd "x"%char t <> " "%char /\ last t "x"%char <> " "%char.
(** text that is one word of a line *)
Definition word_text (t : text) : Prop := t <> [] /\ forall c, In c t -> is_uws c = false /\ c <> "!"%char.
Definition apage_lines (ap : apage) : list text :=
  ap_params ap ++ [dec (Z.of_nat (List.length (ap_rows ap)))] ++ map (join [space]) (ap_rows ap).
Definition apage_text (ap : apage) : text := List.concat (map (fun l => l ++ [newline]) (apage_lines ap)).
Fixpoint reads_all (alone : bool) (max : Z) (ks : list kind) (ts : list text) (vs : list value) : Prop :=
  match ks, ts, vs with
  | [], [], [] => True
  | k :: ks, t :: ts, v :: vs => reads_as alone max k t v /\ reads_all alone max ks ts vs
  | _, _, _ => False
  end.
Definition apage_ok (max : Z) (ps cs : list kind) (ap : apage) (pg : page) : Prop :=
  Forall line_text (ap_params ap) /\ Forall (Forall word_text) (ap_rows ap) /\
  reads_all true max ps (ap_params ap) (pg_params pg) /\ Forall2 (reads_all (Nat.eqb (List.length cs) 1) max cs) (ap_rows ap) (pg_rows pg) /\
  Z.of_nat (List.length (ap_rows ap)) < 2 ^ 31.

(** Headers whose lines can be counted: nothing but comments between the commands, the format
    first, and no carriage return *)
Definition gapless (h : header) : Prop :=
  Forall (fun l => l <> []) (h_before h) /\ (exists b, h_first h = T "SDDS1" ++ b) /\
  (forall t, In (Ignored t) (h_lines h) -> t <> []) /\ ~ In cr (header_text h).
(** the data are text, with row counts; or binary *)
Definition ascii_header (h : header) : Prop :=
  attribute_of (h_data h) (T "mode") = Some (T "ascii") /\
  (attribute_of (h_data h) (T "no_row_counts") = None \/ attribute_of (h_data h) (T "no_row_counts") = Some []).

(* ------------------------------------------------------------------ *)
(** What a reader should report. Names are distinct and not those the reader uses itself *)
Definition is_str (k : kind) : bool := match k with Str => true | _ => false end.
Definition has_strings (nks : list (text * kind)) : bool := existsb (fun nk => is_str (snd nk)) nks.
Definition names_ok (ps cs : list (text * kind)) : Prop :=
  NoDup (map fst ps) /\ NoDup (map fst cs) /\ ~ In record_length (map fst ps ++ map fst cs) /\ ~ In row_counts (map fst ps).
(** a binary page of named parameters and columns, its bytes, and the tables reported for it *)
Definition sound (max : Z) (ps cs : list (text * kind)) (pg : page) : Prop := page_ok max (map snd ps) (map snd cs) pg.
Definition bytes (ps cs : list (text * kind)) (pg : page) : text := page_bytes (map snd ps) (map snd cs) pg.
Definition param_page (ps : list (text * kind)) (pg : page) : array :=
  {| a_names := row_counts :: map fst ps; a_rows := [VInt (Z.of_nat (List.length (pg_rows pg))) :: pg_params pg] |}.
Definition col_page (cs : list (text * kind)) (pg : page) : array := {| a_names := map fst cs; a_rows := pg_rows pg |}.
(** one table of parameters for each page, one of columns for each page that has rows *)
Definition has_rows (cs : list (text * kind)) (pg : page) : bool :=
  match cs, pg_rows pg with [], _ => false | _, [] => false | _, _ => true end.
Definition same_length (n : nat) (pg : page) : Prop := List.length (pg_rows pg) = n.
Definition param_pages ps pgs := map (fun pg => Some (param_page ps pg)) pgs.
Definition col_pages cs pgs := map (fun pg => Some (col_page cs pg)) (filter (has_rows cs) pgs).
Definition binary_header (h : header) : Prop :=
  attribute_of (h_data h) (T "mode") <> Some (T "ascii") /\
  (attribute_of (h_data h) (T "no_row_counts") = None \/ attribute_of (h_data h) (T "no_row_counts") = Some []).
(** the second byte of the row count is not whitespace *)
Definition seen (pg : page) : Prop := is_bws (nth 1 (little 4 (Z.of_nat (List.length (pg_rows pg)))) " "%char) = false.

(** the same for ASCII pages, where the row count comes last; the names have no blanks or quotes
    and are not one of three words that are changed in reading *)
Definition kept_name (n : text) : Prop :=
  n <> [] /\ (forall c, In c n -> is_uws c = false /\ c <> quote_char) /\ n <> T "return" /\ n <> T "file" /\ n <> T "print".
Definition asound (max : Z) (ps cs : list (text * kind)) (ap : apage) (pg : page) : Prop :=
  apage_ok max (map snd ps) (map snd cs) ap pg /\ Forall kept_name (map fst ps ++ map fst cs).
Definition aparam_page (ps : list (text * kind)) (pg : page) : array :=
  {| a_names := map fst ps ++ [row_counts]; a_rows := [pg_params pg ++ [VInt (Z.of_nat (List.length (pg_rows pg)))]] |}.
Definition aparam_pages ps pgs := map (fun pg => Some (aparam_page ps pg)) pgs.
(** the first line of a page has something after its first character *)
Definition aseen (ap : apage) : Prop := match hd [] (apage_lines ap) with _ :: r => exists c, In c r /\ is_bws c = false | [] => False end.

(** What can be written: [n] rows of columns of kind [k], with the values [vss] column by column *)
Record can_write (w : writer) (k : kind) (n : nat) (vss : list (list value)) : Prop := {
  cw_params : Forall param_ok (w_params w);
  cw_cols : Forall2 (col_ok k n) (w_cols w) vss;
  cw_rows : Z.of_nat n < 2 ^ 31;
  cw_none : w_cols w = [] -> n = O }.
Definition can_name (w : writer) : Prop :=
  NoDup (map fst (given (w_params w))) /\ NoDup (map w_name (w_cols w)) /\
  ~ In record_length (map fst (given (w_params w)) ++ map w_name (w_cols w)) /\ ~ In row_counts (map fst (given (w_params w))).

(* ------------------------------------------------------------------ *)
(** Text of lines, and lines of a header that is not well formed everywhere *)
Definition lines_text (ls : list text) : text := List.concat (map (fun l => l ++ [newline]) ls).
Definition contains (w l : text) : Prop := exists a b, l = a ++ w ++ b.
Definition known_commands : list text :=
  [T "&associate"; T "&description"; T "&include"; T "&column"; T "&parameter"; T "&array"].
Definition starts_command (l : text) : Prop := exists w, In w known_commands /\ contains w l.
(** the lines of complete commands, on one line or on several, with comments and empty lines *)
Inductive complete : list text -> Prop :=
  | complete_none : complete []
  | complete_skip : forall l ls, ignorable l -> complete ls -> complete (l :: ls)
  | complete_one : forall l ls, ~ In newline l -> ~ ignorable l -> starts_command l -> contains (T "&end") l -> complete ls -> complete (l :: ls)
  | complete_many : forall l m e ls, ~ In newline l -> ~ ignorable l -> starts_command l -> ~ contains (T "&end") l ->
      Forall (fun x => ignorable x \/ (~ In newline x /\ ~ ignorable x /\ ~ contains (T "&end") x)) m ->
      ~ In newline e -> ~ ignorable e -> contains (T "&end") e -> complete ls -> complete (l :: m ++ e :: ls).
(** a line is followed by its end, or by nothing *)
Definition line_ends (s : text) : Prop := s = [] \/ exists r, s = newline :: r.

(** Everything the writer is told about parameters and columns *)
Definition describable (w : writer) : Prop :=
  Forall param_plain (w_params w) /\ Forall (fun c => col_meta c /\ good_type (w_type c)) (w_cols w) /\
  NoDup (map p_name (w_params w)) /\ NoDup (map w_name (w_cols w)).
Definition equal_lengths (w : writer) : Prop :=
  forall c d, In c (w_cols w) -> In d (w_cols w) -> col_length (w_data c) = col_length (w_data d).

(** what a description holds once read *)
Definition told_param (r : reader) (p : wparam) : Prop :=
  parameter_info r (p_name p) (T "name") = Ok (FStr (p_name p)) /\ parameter_info r (p_name p) (T "type") = Ok (FStr (p_type p)) /\
  parameter_info r (p_name p) (T "units") = Ok (FStr (p_units p)) /\ parameter_info r (p_name p) (T "symbol") = Ok (FStr (p_symbol p)) /\
  parameter_info r (p_name p) (T "format_string") = Ok (FStr (p_format p)) /\ parameter_info r (p_name p) (T "description") = Ok (FStr (p_description p)) /\
  parameter_info r (p_name p) (T "fixed_value") = Ok (fixed_value (p_fixed p)).
Definition told_col (r : reader) (c : wcol) : Prop :=
  column_info r (w_name c) (T "name") = Ok (FStr (w_name c)) /\ column_info r (w_name c) (T "type") = Ok (FStr (w_type c)) /\
  column_info r (w_name c) (T "units") = Ok (FStr (w_units c)) /\ column_info r (w_name c) (T "symbol") = Ok (FStr (w_symbol c)) /\
  column_info r (w_name c) (T "format_string") = Ok (FStr (w_format c)) /\ column_info r (w_name c) (T "description") = Ok (FStr (w_description c)).

(** the pages after several reads *)
Fixpoint again (k : nat) (pgs : list page) : list page := match k with O => [] | S k => again k pgs ++ pgs end.
Fixpoint reads (k : nat) (fuel : nat) (r : reader) : option (reader * res unit) :=
  match k with
  | O => Some (r, Ok tt)
  | S k => match reads k fuel r with Some (r', Ok _) => read fuel r' None | x => x end
  end.

(** What a caller sees: opening a file and reading it leaves these tables *)
Definition loads (f : text) (buffer : bool) (max : Z) (sel : option (list Z)) (fuel : nat) (p c : option (list (option array))) : Prop :=
  exists r r', open_sdds f buffer max = Ok r /\ read fuel r sel = Some (r', Ok tt) /\ r_parameters r' = p /\ r_columns r' = c.
(** ... or reading raises *)
Definition load_fails (f : text) (buffer : bool) (max : Z) (sel : option (list Z)) (fuel : nat) (e : exn) : Prop :=
  exists r r', open_sdds f buffer max = Ok r /\ read fuel r sel = Some (r', Err e).
(** a binary file: a header and pages *)
Definition binary_file (h : header) (ps cs : list (text * kind)) (pgs : list page) : text := header_text h ++ List.concat (map (bytes ps cs) pgs).
Definition ascii_file (h : header) (aps : list apage) : text := header_text h ++ List.concat (map apage_text aps).
(** a header that declares these parameters and columns, with names that can be told apart *)
Definition header_for (h : header) (ps cs : list (text * kind)) : Prop :=
  header_ok h /\ declares h ps cs /\ Forall fixed_readable (params_of (h_lines h)) /\ names_ok ps cs.
(** tables of columns for all pages, empty or not *)
Definition all_columns (cs : list (text * kind)) (pgs : list page) : option (list (option array)) :=
  match cs with [] => None | _ => Some (map (fun pg => Some (col_page cs pg)) pgs) end.
(** the bytes of an equal number of rows, and the second byte of their count *)
Definition count_byte (n : nat) : ascii := nth 1 (little 4 (Z.of_nat n)) " "%char.
(** lines are added at the start of a line *)
Definition line_start (a : text) : Prop := a = [] \/ exists a', a = a' ++ [newline].
(** reading ends: after some number of turns of the loop over the pages there is a result *)
Definition finishes (r : reader) (sel : option (list Z)) : Prop := exists n, forall fuel, (n <= fuel)%nat -> read fuel r sel <> None.
(** ... or there never is one *)
Definition never_finishes (r : reader) (sel : option (list Z)) : Prop := forall fuel, read fuel r sel = None.

(* ------------------------------------------------------------------ *)
(** Saving as text. What numbers the doubles are is left open; a value counts as printed if the
    printed text is one word that reads as its number *)
Definition prints (alone : bool) (num : text -> fl) (t : text) (v : value) : Prop :=
  word_text t /\ ascii_only t /\
  match v with VDouble b => number_text alone t (num b) | VInt z => integer_text alone t z | _ => False end.
(** the number a value stands for, where a double was saved *)
Definition as_number (num : text -> fl) (v : value) : value := match v with VDouble b => VReal (num b) | v => v end.
(** Columns of any mixture of types, [n] rows of them, with their kinds and values *)
Record can_write_text (w : writer) (n : nat) (ks : list kind) (vss : list (list value)) : Prop := {
  ct_params : Forall param_ok (w_params w);
  ct_cols : List.length ks = List.length (w_cols w) /\ List.length vss = List.length (w_cols w) /\
            forall c k vs, In (c, (k, vs)) (combine (w_cols w) (combine ks vss)) -> col_ok k n c vs;
  ct_rows : Z.of_nat n < 2 ^ 31 }.
(** The printing functions handed to the writer print all its values: the parameters, and the cells
    of the table, which are doubles as soon as one column has doubles *)
Definition prints_all (w : writer) (vss : list (list value)) (show : wvalue -> text) (show_cell : text -> text) (num : text -> fl) : Prop :=
  (forall p b, In p (w_params w) -> p_data p = Some (WDouble b) -> prints true num (show (WDouble b)) (VDouble b)) /\
  (forall p z, In p (w_params w) -> p_data p = Some (WInt z) -> prints true num (show (WInt z)) (VInt z)) /\
  (forall vs b, In vs vss -> In (VDouble b) vs -> prints (Nat.eqb (List.length vss) 1) num (show_cell b) (VDouble b)) /\
  (forall vs z, In vs vss -> In (VInt z) vs -> prints (Nat.eqb (List.length vss) 1) num (show_cell (little 2 z)) (VInt z) /\
     prints (Nat.eqb (List.length vss) 1) num (show_cell (little 4 z)) (VInt z) /\ prints (Nat.eqb (List.length vss) 1) num (show_cell (double_bits z)) (VInt z)).
(** the first line of data *)
Definition first_line (w : writer) (n : nat) (show : wvalue -> text) : text :=
  List.hd (dec (Z.of_nat n)) (flat_map (fun p => match p_data p with Some v => [show v] | None => [] end) (w_params w)).
